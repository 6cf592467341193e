(** Correct rounding of the parser's conversion [m10 * 10^e10] to a double. *)
From Coq Require Import Znumtheory.
From Verif Require Import Base SqueezeModel SqueezeProof RyuTable RyuModel RyuCert RyuExact RyuSpec.
Open Scope Z_scope.

(** ** Doubles as scaled integers *)
Lemma dval_combine E M : 1 <= E -> 0 <= M <= 2 ^ 53 -> (E <> 1 -> 2 ^ 52 <= M) ->
  dval ((E - 1) * 2 ^ 52 + M) = M * 2 ^ (E - 1).
Proof.
  intros HE HM HN. unfold dval.
  destruct (Z.lt_ge_cases M (2 ^ 52)) as [Hs|Hs].
  - assert (E = 1) by lia. subst E. replace ((1 - 1) * 2 ^ 52 + M) with M by lia.
    rewrite Z.div_small, Z.mod_small by lia. change (0 =? 0) with true. cbn match. change (2 ^ (1 - 1)) with 1. lia.
  - destruct (Z.eq_dec M (2 ^ 53)) as [->|].
    + replace ((E - 1) * 2 ^ 52 + 2 ^ 53) with (0 + (E + 1) * 2 ^ 52) by lia.
      rewrite Z.div_add, Z.mod_add by lia. rewrite Z.div_0_l, Z.mod_0_l by lia.
      rewrite Z.add_0_l. destruct (Z.eqb_spec (E + 1) 0); [lia|].
      replace (E + 1 - 1) with (1 + (E - 1)) by lia. rewrite Z.pow_add_r by lia. change (2 ^ 1) with 2. lia.
    + replace ((E - 1) * 2 ^ 52 + M) with ((M - 2 ^ 52) + E * 2 ^ 52) by lia.
      rewrite Z.div_add, Z.mod_add by lia. rewrite Z.div_small, Z.mod_small by lia.
      rewrite Z.add_0_l. destruct (Z.eqb_spec E 0); [lia|]. f_equal. lia.
Qed.

(** every magnitude word is of that form *)
Lemma bits_split b : 0 <= b -> exists E M, 1 <= E /\ 0 <= M < 2 ^ 53 /\ (E <> 1 -> 2 ^ 52 <= M) /\ b = (E - 1) * 2 ^ 52 + M.
Proof.
  intros H. destruct (Z.lt_ge_cases b (2 ^ 52)).
  - exists 1, b. lia.
  - exists (b / 2 ^ 52), (2 ^ 52 + b mod 2 ^ 52).
    pose proof (Z.div_mod b (2 ^ 52) ltac:(lia)). pose proof (Z.mod_pos_bound b (2 ^ 52) ltac:(lia)).
    assert (1 <= b / 2 ^ 52) by (apply Z.div_le_lower_bound; lia). lia.
Qed.
Lemma dval_next b : 0 <= b -> dval b < dval (b + 1).
Proof.
  intros H. destruct (bits_split b H) as (E & M & HE & HM & HN & ->).
  replace ((E - 1) * 2 ^ 52 + M + 1) with ((E - 1) * 2 ^ 52 + (M + 1)) by lia.
  rewrite !dval_combine by lia. assert (0 < 2 ^ (E - 1)) by (apply Z.pow_pos_nonneg; lia). nia.
Qed.
Lemma dval_lt a b : 0 <= a < b -> dval a < dval b.
Proof.
  intros H. replace b with (a + 1 + Z.of_nat (Z.to_nat (b - a - 1))) by lia.
  induction (Z.to_nat (b - a - 1)) as [|n IH].
  - replace (a + 1 + Z.of_nat 0) with (a + 1) by lia. apply dval_next. lia.
  - eapply Z.lt_trans; [exact IH|]. replace (a + 1 + Z.of_nat (S n)) with (a + 1 + Z.of_nat n + 1) by lia.
    apply dval_next. lia.
Qed.
Lemma dval_nonneg b : 0 <= b -> 0 <= dval b.
Proof.
  intros H. destruct (bits_split b H) as (E & M & HE & HM & HN & ->). rewrite dval_combine by lia.
  apply Z.mul_nonneg_nonneg; [lia|]. apply Z.pow_nonneg. lia.
Qed.

(** neighbours decide *)
Lemma near_rounds n d b : 0 < d -> 0 <= b <= inf_bits ->
  (b = inf_bits \/ 2 * n < d * (dval b + dval (b + 1)) \/ (2 * n = d * (dval b + dval (b + 1)) /\ Z.even b = true)) ->
  (b = 0 \/ d * (dval (b - 1) + dval b) < 2 * n \/ (d * (dval (b - 1) + dval b) = 2 * n /\ Z.even b = true)) ->
  rounds_to n d b.
Proof.
  intros Hd Hb HU HL. split; [exact Hb|]. intros b' Hb' Hne.
  destruct (Z.lt_ge_cases b b') as [Hlt|Hge].
  - assert (Hm : dval (b + 1) <= dval b').
    { destruct (Z.eq_dec b' (b + 1)) as [->|]; [lia|]. apply Z.lt_le_incl, dval_lt. lia. }
    assert (Hm2 : d * dval (b + 1) <= d * dval b') by (apply Z.mul_le_mono_nonneg_l; lia).
    assert (Hm3 : d * dval b < d * dval b') by (apply Z.mul_lt_mono_pos_l; [lia|apply dval_lt; lia]).
    rewrite Z.mul_add_distr_l in HU.
    destruct HU as [HU|[HU|[HU HE]]]; [lia|left; lia|].
    destruct (Z.eq_dec (Z.abs (n - d * dval b)) (Z.abs (n - d * dval b'))); [right; auto|left; lia].
  - assert (Hm : dval b' <= dval (b - 1)).
    { destruct (Z.eq_dec b' (b - 1)) as [->|]; [lia|]. apply Z.lt_le_incl, dval_lt. lia. }
    assert (Hm2 : d * dval b' <= d * dval (b - 1)) by (apply Z.mul_le_mono_nonneg_l; lia).
    assert (Hm3 : d * dval b' < d * dval b) by (apply Z.mul_lt_mono_pos_l; [lia|apply dval_lt; lia]).
    rewrite Z.mul_add_distr_l in HL.
    destruct HL as [HL|[HL|[HL HE]]]; [lia|left; lia|].
    destruct (Z.eq_dec (Z.abs (n - d * dval b)) (Z.abs (n - d * dval b'))); [right; auto|left; lia].
Qed.

Lemma rounds_unique n d b b' : 0 < d -> rounds_to n d b -> rounds_to n d b' -> b = b'.
Proof.
  assert (W : forall n d b b', 0 < d -> rounds_to n d b -> rounds_to n d b' -> b < b' -> False).
  { clear. intros n d b b' Hd [Hb H] [Hb' H'] Hlt.
    destruct (H b' Hb' ltac:(lia)) as [A|[A Ae]]; destruct (H' b Hb ltac:(lia)) as [B|[B Be]]; try lia.
    assert (b + 1 <> b').
    { intros <-. rewrite Z.add_1_r, Z.even_succ, <- Z.negb_even, Ae in Be. discriminate. }
    assert (M1 : d * dval b < d * dval (b + 1)) by (apply Z.mul_lt_mono_pos_l; [lia|apply dval_lt; lia]).
    assert (M2 : d * dval (b + 1) < d * dval b') by (apply Z.mul_lt_mono_pos_l; [lia|apply dval_lt; lia]).
    destruct (H (b + 1) ltac:(lia) ltac:(lia)) as [C|[C _]]; lia. }
  intros Hd H1 H2. destruct (Z.lt_trichotomy b b') as [L|[L|L]]; [exfalso; eauto|exact L|exfalso; eauto].
Qed.

Lemma rounds_ext n d n' d' b : 0 < d -> 0 < d' -> n * d' = n' * d -> rounds_to n d b -> rounds_to n' d' b.
Proof.
  intros Hd Hd' HE [Hb H]. split; [exact Hb|]. intros b' Hb' Hne.
  assert (X : forall x, d * Z.abs (n' - d' * x) = d' * Z.abs (n - d * x)).
  { intros x. rewrite <- (Z.abs_eq d) at 1 by lia. rewrite <- (Z.abs_eq d') at 2 by lia.
    rewrite <- !Z.abs_mul. f_equal. rewrite !Z.mul_sub_distr_l. rewrite (Z.mul_comm d n'), <- HE. ring. }
  destruct (H b' Hb' Hne) as [A|[A Ae]].
  - left. apply Z.mul_lt_mono_pos_l with d; [lia|]. rewrite !X. apply Z.mul_lt_mono_pos_l; lia.
  - right. split; [|exact Ae]. apply Z.mul_reg_l with d; [lia|]. rewrite !X, A. reflexivity.
Qed.

(** ** Rounding a quotient half to even *)
Definition rhe (n d : Z) : Z :=
  let k := n / d in
  let r := n mod d in
  if (d <? 2 * r) || ((2 * r =? d) && Z.odd k) then k + 1 else k.

Lemma combine_rounds n d E : 0 < d -> 0 <= n -> 1 <= E <= 2046 ->
  n < d * 2 ^ 53 -> (E <> 1 -> d * 2 ^ 52 <= n) ->
  rounds_to (n * 2 ^ (E - 1)) d ((E - 1) * 2 ^ 52 + rhe n d) /\ 0 <= rhe n d <= 2 ^ 53 /\ (E <> 1 -> 2 ^ 52 <= rhe n d).
Proof.
  intros Hd Hn HE Hhi Hlo.
  pose proof (Z.div_mod n d ltac:(lia)) as DM. pose proof (Z.mod_pos_bound n d ltac:(lia)) as MB.
  assert (K0 : 0 <= n / d < 2 ^ 53) by (split; [apply Z.div_pos; lia|apply Z.div_lt_upper_bound; lia]).
  assert (K1 : E <> 1 -> 2 ^ 52 <= n / d) by (intros; apply Z.div_le_lower_bound; [lia|auto]).
  set (k := n / d) in *. set (r := n mod d) in *.
  assert (R : rhe n d = k /\ (2 * r < d \/ (2 * r = d /\ Z.even k = true))
           \/ rhe n d = k + 1 /\ (d < 2 * r \/ (2 * r = d /\ Z.even (k + 1) = true))).
  { unfold rhe. fold k r. destruct (Z.ltb_spec d (2 * r)); cbn [orb]; [right; auto|].
    destruct (Z.eqb_spec (2 * r) d); cbn [andb].
    - destruct (Z.odd k) eqn:Ho; [right|left]; (split; [reflexivity|right; split; [assumption|]]).
      + rewrite Z.add_1_r, Z.even_succ. exact Ho.
      + rewrite <- Z.negb_odd, Ho. reflexivity.
    - left. split; [reflexivity|left; lia]. }
  clearbody k r. assert (P : 0 < 2 ^ (E - 1)) by (apply Z.pow_pos_nonneg; lia).
  assert (B : 0 <= rhe n d <= 2 ^ 53 /\ (E <> 1 -> 2 ^ 52 <= rhe n d)) by lia.
  split; [|exact B]. set (M := rhe n d) in *. clearbody M. destruct B as [B1 B2].
  assert (Ev : Z.even ((E - 1) * 2 ^ 52 + M) = Z.even M).
  { rewrite Z.even_add, Z.even_mul. change (Z.even (2 ^ 52)) with true. rewrite orb_true_r. destruct (Z.even M); reflexivity. }
  assert (HP : forall x y, x < y -> x * 2 ^ (E - 1) < y * 2 ^ (E - 1)) by (intros; apply Z.mul_lt_mono_pos_r; lia).
  assert (In : 0 <= (E - 1) * 2 ^ 52 + M <= inf_bits) by (unfold inf_bits; lia).
  set (p := 2 ^ (E - 1)) in *.
  assert (Up : forall X, d * (2 * M + 1) = X -> d * M * p + d * (M + 1) * p <= d * (dval ((E - 1) * 2 ^ 52 + M) + dval ((E - 1) * 2 ^ 52 + M + 1))).
  { intros _ _. rewrite (dval_combine E M) by lia.
    assert ((M + 1) * p <= dval ((E - 1) * 2 ^ 52 + M + 1)).
    { destruct (Z.eq_dec M (2 ^ 53)) as [->|].
      - replace ((E - 1) * 2 ^ 52 + 2 ^ 53 + 1) with ((E + 1 - 1) * 2 ^ 52 + (2 ^ 52 + 1)) by lia.
        rewrite dval_combine by lia. replace (E + 1 - 1) with (1 + (E - 1)) by lia. rewrite Z.pow_add_r by lia.
        fold p. change (2 ^ 1) with 2. lia.
      - replace ((E - 1) * 2 ^ 52 + M + 1) with ((E - 1) * 2 ^ 52 + (M + 1)) by lia. rewrite dval_combine by lia.
        fold p. lia. }
    replace (d * M * p + d * (M + 1) * p) with (d * (M * p + (M + 1) * p)) by ring.
    apply Z.mul_le_mono_nonneg_l; [lia|]. fold p. lia. }
  specialize (Up _ eq_refl).
  replace (d * M * p + d * (M + 1) * p) with (d * (2 * M + 1) * p) in Up by ring.
  destruct R as [[-> R]|[-> R]].
  - (* rounded down *)
    apply near_rounds; [exact Hd|exact In| |].
    + right. destruct R as [R|[R Re]].
      * left. assert (2 * n < d * (2 * k + 1)) by lia. pose proof (HP _ _ H). lia.
      * assert (2 * n = d * (2 * k + 1)) by lia.
        assert (2 * (n * p) = d * (2 * k + 1) * p) by (rewrite <- H; ring).
        destruct (Z.eq_dec (2 * (n * p)) (d * (dval ((E - 1) * 2 ^ 52 + k) + dval ((E - 1) * 2 ^ 52 + k + 1)))).
        -- right. split; [assumption|]. rewrite Ev. exact Re.
        -- left. lia.
    + destruct (Z.eq_dec ((E - 1) * 2 ^ 52 + k) 0); [left; assumption|right; left].
      pose proof (dval_lt ((E - 1) * 2 ^ 52 + k - 1) ((E - 1) * 2 ^ 52 + k) ltac:(lia)) as DL.
      rewrite (dval_combine E k) in * by lia. fold p in DL |- *.
      assert (d * (k * p) <= n * p).
      { replace (d * (k * p)) with (d * k * p) by ring. apply Z.mul_le_mono_nonneg_r; lia. }
      assert (d * dval ((E - 1) * 2 ^ 52 + k - 1) < d * (k * p)) by (apply Z.mul_lt_mono_pos_l; lia).
      rewrite Z.mul_add_distr_l. lia.
  - (* rounded up *)
    apply near_rounds; [exact Hd|exact In| |].
    + right. left. assert (2 * n < d * (2 * (k + 1) + 1)) by lia. pose proof (HP _ _ H). lia.
    + right. replace ((E - 1) * 2 ^ 52 + (k + 1) - 1) with ((E - 1) * 2 ^ 52 + k) by lia.
      rewrite !dval_combine by lia. fold p.
      replace (d * (k * p + (k + 1) * p)) with (d * (2 * k + 1) * p) by ring.
      destruct R as [R|[R Re]].
      * left. assert (d * (2 * k + 1) < 2 * n) by lia. pose proof (HP _ _ H). lia.
      * right. split; [|rewrite Ev; exact Re]. assert (d * (2 * k + 1) = 2 * n) by lia. rewrite H. ring.
Qed.

(** ** The last step of the parser *)
Lemma land_mask x s : 0 <= s -> Z.land x (2 ^ s - 1) = x mod 2 ^ s.
Proof. intros H. replace (2 ^ s - 1) with (Z.ones s) by (rewrite Z.ones_equiv; lia). apply Z.land_ones. exact H. Qed.
Lemma land_one x : Z.land x 1 = x mod 2.
Proof. exact (land_mask x 1 ltac:(lia)). Qed.
Lemma to_s32_small z : - 2 ^ 31 <= z < 2 ^ 31 -> to_s 32 (to_u 32 z) = z.
Proof.
  intros H. unfold to_s, to_u. change (32 - 1) with 31.
  rewrite Z.add_mod_idemp_l by lia. rewrite Z.mod_small by lia. lia.
Qed.
Lemma dval_inf : dval inf_bits = 2 ^ 52 * 2 ^ 2046.
Proof. vm_compute. reflexivity. Qed.

Lemma lor_words e m : 0 <= m < 2 ^ 52 -> Z.lor (e * 2 ^ 52) m = e * 2 ^ 52 + m.
Proof.
  intros H. assert (HL : Z.land (e * 2 ^ 52) m = 0).
  2: { rewrite Z.add_nocarry_lxor by exact HL. symmetry. apply Z.lxor_lor. exact HL. }
  apply Z.bits_inj'. intros i Hi. rewrite Z.land_spec, Z.bits_0.
  destruct (Z.lt_ge_cases i 52).
  - rewrite Z.mul_pow2_bits_low by lia. reflexivity.
  - destruct (Z.eq_dec m 0) as [->|]; [rewrite Z.bits_0; apply andb_false_r|].
    rewrite (Z.bits_above_log2 m i); [apply andb_false_r|lia|].
    assert (Z.log2 m < 52) by (apply Z.log2_lt_pow2; lia). lia.
Qed.

Lemma round_step A B s tz m2 : 0 < B -> 0 <= A -> 1 <= s -> m2 = A / B ->
  (tz = true <-> A mod B = 0) ->
  rhe A (B * 2 ^ s) = m2 / 2 ^ s +
    (if negb (Z.land (m2 / 2 ^ (s - 1)) 1 =? 0) &&
        (negb (tz && (Z.land m2 (2 ^ (s - 1) - 1) =? 0)) || negb (Z.land (m2 / 2 ^ s) 1 =? 0)) then 1 else 0).
Proof.
  intros HB HA Hs -> Htz. rewrite land_mask, !land_one by lia.
  assert (Ps : 0 < 2 ^ (s - 1)) by (apply Z.pow_pos_nonneg; lia).
  assert (Es : 2 ^ s = 2 ^ (s - 1) * 2) by (change 2 with (2 ^ 1) at 3; rewrite <- Z.pow_add_r by lia; f_equal; lia).
  unfold rhe. rewrite <- Z.div_div by lia.
  pose proof (Z.div_mod A B ltac:(lia)) as DA. pose proof (Z.mod_pos_bound A B ltac:(lia)) as MA.
  set (m2 := A / B) in *. set (a := A mod B) in *.
  assert (Hm2 : 0 <= m2) by (apply Z.div_pos; lia).
  rewrite Es. rewrite <- (Z.div_div m2 (2 ^ (s - 1)) 2) by lia.
  pose proof (Z.div_mod m2 (2 ^ (s - 1)) ltac:(lia)) as DM. pose proof (Z.mod_pos_bound m2 (2 ^ (s - 1)) ltac:(lia)) as MM.
  set (h := m2 / 2 ^ (s - 1)) in *. set (lo := m2 mod 2 ^ (s - 1)) in *.
  pose proof (Z.div_mod h 2 ltac:(lia)) as DH. pose proof (Z.mod_pos_bound h 2 ltac:(lia)) as MH.
  set (hi := h / 2) in *. set (lb := h mod 2) in *.
  set (P := 2 ^ (s - 1)) in *.
  assert (ER : A mod (B * (P * 2)) = (lb * P + lo) * B + a).
  { symmetry. apply Z.mod_unique with hi.
    - left. split; [apply Z.add_nonneg_nonneg; [apply Z.mul_nonneg_nonneg; [|lia]|lia]|].
      + apply Z.add_nonneg_nonneg; [apply Z.mul_nonneg_nonneg; lia|lia].
      + assert (lb * P + lo <= P * 2 - 1).
        { assert (lb * P <= 1 * P) by (apply Z.mul_le_mono_nonneg_r; lia). lia. }
        assert ((lb * P + lo) * B <= (P * 2 - 1) * B) by (apply Z.mul_le_mono_nonneg_r; lia).
        replace (B * (P * 2)) with ((P * 2 - 1) * B + B) by ring. lia.
    - rewrite DA, DM, DH. ring. }
  rewrite ER.
  assert (LoB : 0 <= lo * B + a < P * B).
  { assert (lo * B <= (P - 1) * B) by (apply Z.mul_le_mono_nonneg_r; lia).
    assert (0 <= lo * B) by (apply Z.mul_nonneg_nonneg; lia). lia. }
  assert (Z0 : lo * B + a = 0 <-> lo = 0 /\ a = 0).
  { split; [|intros [-> ->]; lia]. intros E.
    assert (0 <= lo * B) by (apply Z.mul_nonneg_nonneg; lia).
    assert (a = 0) by lia. assert (lo * B = 0) by lia. apply Z.mul_eq_0 in H1. lia. }
  assert (Odd : Z.odd hi = negb (hi mod 2 =? 0)).
  { rewrite Zmod_odd. destruct (Z.odd hi); reflexivity. }
  rewrite Odd.
  assert (Cl : lb = 0 \/ lb = 1) by lia. destruct Cl as [Hl|Hl]; rewrite Hl.
  - change (0 =? 0) with true. cbn [negb andb].
    destruct (Z.ltb_spec (B * (P * 2)) (2 * ((0 * P + lo) * B + a))); [lia|].
    destruct (Z.eqb_spec (2 * ((0 * P + lo) * B + a)) (B * (P * 2))); [lia|]. cbn [orb andb]. lia.
  - change (1 =? 0) with false. cbn [negb andb].
    replace (2 * ((1 * P + lo) * B + a)) with (B * (P * 2) + 2 * (lo * B + a)) by ring.
    destruct (Z.eqb_spec lo 0) as [El|El].
    + destruct tz.
      * assert (a = 0) by (apply Htz; reflexivity).
        assert (lo * B + a = 0) by (apply Z0; auto). rewrite H0.
        destruct (Z.ltb_spec (B * (P * 2)) (B * (P * 2) + 2 * 0)); [lia|].
        destruct (Z.eqb_spec (B * (P * 2) + 2 * 0) (B * (P * 2))); [|lia]. cbn [orb andb negb].
        destruct (hi mod 2 =? 0); cbn [negb]; lia.
      * assert (a <> 0) by (intros E; apply Htz in E; discriminate).
        destruct (Z.ltb_spec (B * (P * 2)) (B * (P * 2) + 2 * (lo * B + a))); [|lia]. cbn [orb andb negb]. lia.
    + rewrite andb_false_r. cbn [negb orb].
      destruct (Z.ltb_spec (B * (P * 2)) (B * (P * 2) + 2 * (lo * B + a))); [cbn [orb]; lia|].
      assert (lo * B + a = 0) by lia. apply Z0 in H0. lia.
Qed.

Lemma assemble_ok s A B m2 e2 tz : 0 < B -> 0 <= A -> m2 = A / B -> (tz = true <-> A mod B = 0) ->
  2 ^ 53 <= m2 < 2 ^ 55 -> -1133 <= e2 <= 2000 ->
  exists w, assemble s m2 e2 tz = Ok (with_sign s w) /\
    forall k k', 0 <= k -> 0 <= k' -> k - k' = e2 + 1074 -> rounds_to (A * 2 ^ k) (B * 2 ^ k') w.
Proof.
  intros HB HA Em Htz Hm He. unfold assemble, floor_log2.
  destruct (Z.eqb_spec m2 0); [lia|]. cbn [bind].
  assert (Hf : 53 <= Z.log2 m2 <= 54).
  { split; [apply Z.log2_le_pow2; lia|]. assert (Z.log2 m2 < 55) by (apply Z.log2_lt_pow2; lia). lia. }
  pose proof (Z.log2_spec m2 ltac:(lia)) as Hspec.
  set (f := Z.log2 m2) in *. clearbody f. rewrite <- Z.add_1_r in Hspec.
  rewrite to_s32_small by lia. set (t := e2 + 1023 + f).
  assert (HAm : B * m2 <= A) by (subst m2; apply Z.mul_div_le; lia).
  assert (HAm2 : A < B * (m2 + 1)).
  { subst m2. rewrite Z.add_1_r. apply Z.mul_succ_div_gt. lia. }
  destruct (Z.ltb_spec 2046 (if 0 <? t then t else 0)) as [Hinf|Hfin].
  - destruct (Z.ltb_spec 0 t); [|lia].
    exists (2047 * 2 ^ 52). split; [reflexivity|]. intros k k' Hk Hk' Hkk. change (2047 * 2 ^ 52) with inf_bits.
    assert (Pk : 0 < 2 ^ k') by (apply Z.pow_pos_nonneg; lia).
    assert (0 < B * 2 ^ k') by (apply Z.mul_pos_pos; lia).
    apply near_rounds; [assumption|unfold inf_bits; lia|auto|].
    right; left.
    pose proof (dval_lt (inf_bits - 1) inf_bits ltac:(unfold inf_bits; lia)) as DL.
    assert (G : B * 2 ^ k' * dval inf_bits <= A * 2 ^ k).
    { rewrite dval_inf. rewrite <- Z.pow_add_r by lia.
      apply Z.le_trans with (B * 2 ^ f * 2 ^ k).
      - replace (B * 2 ^ k' * 2 ^ (52 + 2046)) with (B * (2 ^ k' * 2 ^ (52 + 2046))) by ring.
        replace (B * 2 ^ f * 2 ^ k) with (B * (2 ^ f * 2 ^ k)) by ring.
        apply Z.mul_le_mono_nonneg_l; [lia|]. rewrite <- !Z.pow_add_r by lia. apply Z.pow_le_mono_r; lia.
      - apply Z.mul_le_mono_nonneg_r; [apply Z.pow_nonneg; lia|].
        apply Z.le_trans with (B * m2); [apply Z.mul_le_mono_nonneg_l; lia|exact HAm]. }
    assert (B * 2 ^ k' * dval (inf_bits - 1) < B * 2 ^ k' * dval inf_bits) by (apply Z.mul_lt_mono_pos_l; lia).
    rewrite Z.mul_add_distr_l. lia.
  - set (E := if 0 <? t then t else 1).
    assert (HE : 1 <= E <= 2046) by (unfold E; destruct (Z.ltb_spec 0 t); lia).
    assert (Hsh : (if (if 0 <? t then t else 0) =? 0 then 1 else (if 0 <? t then t else 0)) = E).
    { unfold E. destruct (Z.ltb_spec 0 t); [destruct (Z.eqb_spec t 0); lia|reflexivity]. }
    rewrite Hsh. set (sh := E - e2 - 1075).
    assert (Hs1 : 1 <= sh <= 60).
    { unfold sh, E. destruct (Z.ltb_spec 0 t); unfold t in *; lia. }
    replace (E - e2 - 1023 - 52) with sh by (unfold sh; lia).
    rewrite to_s32_small by lia. unfold low_mask, shr64.
    destruct (Z.leb_spec 0 (sh - 1)); [|lia]. destruct (Z.ltb_spec (sh - 1) 64); [|lia].
    destruct (Z.leb_spec 0 sh); [|lia]. destruct (Z.ltb_spec sh 64); [|lia]. cbn [andb bind].
    pose proof (round_step A B sh tz m2 HB HA ltac:(lia) Em Htz) as RS.
    set (up := negb (Z.land (m2 / 2 ^ (sh - 1)) 1 =? 0) &&
        (negb (tz && (Z.land m2 (2 ^ (sh - 1) - 1) =? 0)) || negb (Z.land (m2 / 2 ^ sh) 1 =? 0))) in *.
    set (hi := m2 / 2 ^ sh) in *.
    assert (Psh : 0 < 2 ^ sh) by (apply Z.pow_pos_nonneg; lia).
    assert (Hhi : 0 <= hi /\ (0 < t -> 2 ^ 52 <= hi < 2 ^ 53) /\ (t <= 0 -> hi < 2 ^ 52)).
    { unfold hi. split; [apply Z.div_pos; lia|]. split; intros Ht.
      - unfold E in sh. destruct (Z.ltb_spec 0 t); [|lia]. assert (sh = f - 52) by (unfold sh, t; lia).
        split; [apply Z.div_le_lower_bound; [lia|]|apply Z.div_lt_upper_bound; [lia|]].
        + rewrite <- Z.pow_add_r by lia. replace (sh + 52) with f by lia. lia.
        + rewrite <- Z.pow_add_r by lia. replace (sh + 53) with (f + 1) by lia. lia.
      - unfold E in sh. destruct (Z.ltb_spec 0 t); [lia|].
        apply Z.div_lt_upper_bound; [lia|]. rewrite <- Z.pow_add_r by lia.
        apply Z.lt_le_trans with (2 ^ (f + 1)); [lia|]. apply Z.pow_le_mono_r; unfold sh, t in *; lia. }
    destruct Hhi as (Hh0 & Hh1 & Hh2).
    assert (Ediv : A / (B * 2 ^ sh) = hi) by (unfold hi; rewrite Em, Z.div_div by lia; reflexivity).
    assert (Pd : 0 < B * 2 ^ sh) by (apply Z.mul_pos_pos; lia).
    destruct (combine_rounds A (B * 2 ^ sh) E Pd HA HE) as [CR [CB CB2]].
    { assert (H' : A < B * 2 ^ sh * Z.succ (A / (B * 2 ^ sh))) by (apply Z.mul_succ_div_gt; lia).
      rewrite Ediv in H'. eapply Z.lt_le_trans; [exact H'|]. apply Z.mul_le_mono_nonneg_l; lia. }
    { intros HE1. assert (0 < t) by (unfold E in HE1; destruct (Z.ltb_spec 0 t); lia).
      assert (H' : B * 2 ^ sh * (A / (B * 2 ^ sh)) <= A) by (apply Z.mul_div_le; lia).
      rewrite Ediv in H'. eapply Z.le_trans; [|exact H']. apply Z.mul_le_mono_nonneg_l; lia. }
    rewrite RS in CR, CB, CB2.
    exists ((E - 1) * 2 ^ 52 + (hi + (if up then 1 else 0))). split.
    + f_equal. f_equal. rewrite (land_mask _ 52) by lia.
      assert (Mb : 0 <= (hi + (if up then 1 else 0)) mod 2 ^ 52 < 2 ^ 52) by (apply Z.mod_pos_bound; lia).
      rewrite lor_words by exact Mb.
      destruct (Z.lt_ge_cases 0 t) as [Ht|Ht].
      * assert (EE : E = t) by (unfold E; destruct (Z.ltb_spec 0 t); lia). rewrite EE.
        destruct (Z.ltb_spec 0 t); [|lia]. specialize (Hh1 Ht).
        destruct up.
        -- destruct (Z.eq_dec hi (2 ^ 53 - 1)) as [->|].
           ++ replace (2 ^ 53 - 1 + 1) with (2 * 2 ^ 52) by lia. rewrite Z.mod_mul by lia.
              change (0 =? 0) with true. cbn [andb]. lia.
           ++ replace (hi + 1) with (hi + 1 - 2 ^ 52 + 1 * 2 ^ 52) at 1 2 by lia. rewrite Z.mod_add, Z.mod_small by lia.
              destruct (Z.eqb_spec (hi + 1 - 2 ^ 52) 0); cbn [andb]; lia.
        -- rewrite andb_false_r, Z.add_0_r. replace hi with (hi - 2 ^ 52 + 1 * 2 ^ 52) at 1 by lia.
           rewrite Z.mod_add, Z.mod_small by lia. lia.
      * assert (EE : E = 1) by (unfold E; destruct (Z.ltb_spec 0 t); lia). rewrite EE.
        destruct (Z.ltb_spec 0 t); [lia|]. specialize (Hh2 ltac:(lia)).
        destruct up.
        -- destruct (Z.eq_dec hi (2 ^ 52 - 1)) as [->|].
           ++ replace (2 ^ 52 - 1 + 1) with (1 * 2 ^ 52) by lia. rewrite Z.mod_mul by lia.
              change (0 =? 0) with true. cbn [andb]. lia.
           ++ rewrite Z.mod_small by lia. destruct (Z.eqb_spec (hi + 1) 0); cbn [andb]; lia.
        -- rewrite andb_false_r, Z.add_0_r, Z.mod_small by lia. lia.
    + intros k k' Hk Hk' Hkk.
      assert (0 < 2 ^ k') by (apply Z.pow_pos_nonneg; lia).
      apply (rounds_ext (A * 2 ^ (E - 1)) (B * 2 ^ sh)); [exact Pd|apply Z.mul_pos_pos; lia| |exact CR].
      replace (A * 2 ^ (E - 1) * (B * 2 ^ k')) with (A * B * (2 ^ (E - 1) * 2 ^ k')) by ring.
      replace (A * 2 ^ k * (B * 2 ^ sh)) with (A * B * (2 ^ k * 2 ^ sh)) by ring.
      rewrite <- !Z.pow_add_r by lia. do 2 f_equal. unfold sh. lia.
Qed.

(** ** Divisibility tests *)
Lemma inv5 v : 0 <= v < 2 ^ 64 ->
  (n_div_5 <? to_u 64 (v * m_inv_5)) = negb (v mod 5 =? 0) /\ (v mod 5 = 0 -> to_u 64 (v * m_inv_5) = v / 5).
Proof.
  intros H. unfold to_u. set (x := (v * m_inv_5) mod 2 ^ 64).
  assert (Hx : 0 <= x < 2 ^ 64) by (apply Z.mod_pos_bound; lia).
  assert (H5 : (5 * x) mod 2 ^ 64 = v).
  { unfold x. rewrite Z.mul_mod_idemp_r by lia. replace (5 * (v * m_inv_5)) with (v * (5 * m_inv_5)) by ring.
    change (5 * m_inv_5) with (1 + 4 * 2 ^ 64). replace (v * (1 + 4 * 2 ^ 64)) with (v + (v * 4) * 2 ^ 64) by ring.
    rewrite Z.mod_add by lia. apply Z.mod_small. lia. }
  assert (Q : v mod 5 = 0 -> x = v / 5).
  { intros E. unfold x.
    assert (Ev : v = 5 * (v / 5)) by (pose proof (Z.div_mod v 5 ltac:(lia)); lia).
    set (k := v / 5) in *. replace (v * m_inv_5) with (k * (5 * m_inv_5)) by (rewrite Ev; ring).
    change (5 * m_inv_5) with (1 + 4 * 2 ^ 64). replace (k * (1 + 4 * 2 ^ 64)) with (k + (k * 4) * 2 ^ 64) by ring.
    rewrite Z.mod_add by lia. apply Z.mod_small. lia. }
  split; [|exact Q]. clearbody x. unfold n_div_5.
  destruct (Z.eqb_spec (v mod 5) 0) as [E|E]; cbn [negb].
  - rewrite (Q E). apply Z.ltb_ge. apply Z.div_le_upper_bound; lia.
  - apply Z.ltb_lt. destruct (Z.lt_ge_cases 3689348814741910323 x); [assumption|exfalso].
    rewrite Z.mod_small in H5 by lia. apply E. rewrite <- H5, Z.mul_comm. apply Z.mod_mul. lia.
Qed.

Lemma divide5 p v : 0 <= p -> v mod 5 = 0 -> ((5 ^ (p + 1) | v) <-> (5 ^ p | v / 5)).
Proof.
  intros Hp H. assert (Ev : v = v / 5 * 5) by (pose proof (Z.div_mod v 5 ltac:(lia)); lia).
  rewrite Z.pow_add_r by lia. change (5 ^ 1) with 5. rewrite Ev at 1.
  split; intros D.
  - apply Z.mul_divide_cancel_r in D; [exact D|lia].
  - apply Z.mul_divide_mono_r. exact D.
Qed.

Lemma pow5Factor_ok fuel : forall v count, 0 < v < 5 ^ Z.of_nat fuel -> v < 2 ^ 64 -> 
  exists c, pow5Factor fuel v count = Ok (count + c) /\ 0 <= c /\ (forall p, 0 <= p -> (p <= c <-> (5 ^ p | v))).
Proof.
  induction fuel as [|f IH]; intros v count Hv H64; [change (5 ^ Z.of_nat 0) with 1 in Hv; lia|].
  cbn [pow5Factor]. cbv zeta. destruct (inv5 v ltac:(lia)) as [I1 I2]. rewrite I1.
  rewrite Nat2Z.inj_succ, Z.pow_succ_r in Hv by lia.
  destruct (Z.eqb_spec (v mod 5) 0) as [E|E]; cbn [negb].
  - rewrite I2 by exact E. assert (Ev : v = v / 5 * 5) by (pose proof (Z.div_mod v 5 ltac:(lia)); lia).
    destruct (IH (v / 5) (count + 1)) as (c & H1 & H2 & H3); [lia|lia|].
    exists (c + 1). split; [rewrite H1; f_equal; lia|]. split; [lia|]. intros p Hp.
    destruct (Z.eq_dec p 0) as [->|].
    + split; [intros _; apply Z.divide_1_l|lia].
    + replace p with ((p - 1) + 1) at 2 by lia. rewrite divide5 by lia. rewrite <- H3 by lia. lia.
  - exists 0. split; [f_equal; lia|]. split; [lia|]. intros p Hp. split.
    + intros. replace p with 0 by lia. apply Z.divide_1_l.
    + intros D. destruct (Z.eq_dec p 0); [lia|exfalso]. apply E. apply Z.mod_divide; [lia|].
      apply Z.divide_trans with (5 ^ p); [|exact D]. replace p with (1 + (p - 1)) by lia. rewrite Z.pow_add_r by lia.
      apply Z.divide_factor_l.
Qed.
Lemma mult5_ok v p : 0 < v < 2 ^ 64 -> 0 <= p ->
  exists b, multipleOfPowerOf5 v p = Ok b /\ (b = true <-> (5 ^ p | v)).
Proof.
  intros Hv Hp. unfold multipleOfPowerOf5.
  destruct (pow5Factor_ok 40 v 0) as (c & H1 & H2 & H3).
  { split; [lia|]. apply Z.lt_trans with (2 ^ 64); [lia|]. vm_compute. reflexivity. }
  { lia. }
  rewrite H1. cbn [bind]. eexists. split; [reflexivity|]. rewrite Z.leb_le, Z.add_0_l. apply H3. exact Hp.
Qed.
Lemma mult2_ok v p : 0 <= p < 64 ->
  exists b, multipleOfPowerOf2 v p = Ok b /\ (b = true <-> (2 ^ p | v)).
Proof.
  intros Hp. unfold multipleOfPowerOf2, low_mask.
  destruct (Z.leb_spec 0 p); [|lia]. destruct (Z.ltb_spec p 64); [|lia]. cbn [andb bind].
  eexists. split; [reflexivity|]. rewrite land_mask by lia. rewrite Z.eqb_eq. apply Z.mod_divide. apply Z.pow_nonzero; lia.
Qed.

Lemma coprime_pow a b n m : Z.gcd a b = 1 -> 0 <= n -> 0 <= m -> Z.gcd (a ^ n) (b ^ m) = 1.
Proof.
  intros H Hn Hm. apply Zgcd_1_rel_prime. apply rel_prime_sym. 
  assert (forall x y k, 0 <= k -> rel_prime x y -> rel_prime (x ^ k) y).
  { clear. intros x y k Hk H. replace k with (Z.of_nat (Z.to_nat k)) by lia. induction (Z.to_nat k) as [|n IH].
    - change (x ^ Z.of_nat 0) with 1. apply rel_prime_1.
    - rewrite Nat2Z.inj_succ, Z.pow_succ_r by lia. apply rel_prime_sym, rel_prime_mult; apply rel_prime_sym; assumption. }
  apply H0; [lia|]. apply rel_prime_sym. apply H0; [lia|]. apply Zgcd_1_rel_prime. exact H.
Qed.

(** ** Conversion *)
Lemma zero_near e : nearest 0 e 0.
Proof.
  unfold nearest. rewrite !Z.mul_0_l. set (d := 10 ^ Z.max (- e) 0).
  assert (0 < d) by (apply Z.pow_pos_nonneg; lia).
  apply near_rounds; [lia|unfold inf_bits; lia| |left; reflexivity].
  right; left. change (dval 0) with 0. change (dval (0 + 1)) with 1. lia.
Qed.
Lemma tiny_near m dig e : 0 < m < 10 ^ dig -> 1 <= dig -> dig + e <= -324 -> nearest m e 0.
Proof.
  intros Hm Hd He. unfold nearest. rewrite Z.max_r by lia. rewrite Z.max_l by lia. change (10 ^ 0) with 1. rewrite Z.mul_1_r.
  assert (0 < 10 ^ (- e)) by (apply Z.pow_pos_nonneg; lia).
  apply near_rounds; [lia|unfold inf_bits; lia| |left; reflexivity].
  right; left. change (dval 0) with 0. change (dval (0 + 1)) with 1. rewrite Z.add_0_l, Z.mul_1_r.
  apply Z.lt_le_trans with (10 ^ dig * 10 ^ 324).
  - replace (2 * (m * 2 ^ 1074)) with (m * 2 ^ 1075) by (change (2 ^ 1075) with (2 * 2 ^ 1074); ring).
    assert (2 ^ 1075 < 10 ^ 324) by (vm_compute; reflexivity).
    apply Z.mul_lt_mono_nonneg; try lia.
  - rewrite <- Z.pow_add_r by lia. apply Z.pow_le_mono_r; lia.
Qed.
Lemma huge_near m dig e : 10 ^ (dig - 1) <= m < 2 ^ 57 -> 1 <= dig -> 310 <= dig + e -> nearest m e inf_bits.
Proof.
  intros Hm Hd He.
  assert (dig <= 18).
  { destruct (Z.le_gt_cases dig 18); [assumption|exfalso].
    assert (10 ^ 18 <= 10 ^ (dig - 1)) by (apply Z.pow_le_mono_r; lia).
    assert (2 ^ 57 < 10 ^ 18) by (vm_compute; reflexivity). lia. }
  unfold nearest. rewrite Z.max_l by lia. rewrite Z.max_r by lia. change (10 ^ 0) with 1.
  apply near_rounds; [lia|unfold inf_bits; lia|left; reflexivity|].
  right; left. pose proof (dval_lt (inf_bits - 1) inf_bits ltac:(unfold inf_bits; lia)) as DL.
  assert (dval inf_bits <= m * 10 ^ e * 2 ^ 1074); [|lia].
  rewrite dval_inf. apply Z.le_trans with (10 ^ 309 * 2 ^ 1074).
  - assert (2 ^ 52 * 2 ^ 2046 <=? 10 ^ 309 * 2 ^ 1074 = true) by (vm_compute; reflexivity). apply Z.leb_le. assumption.
  - apply Z.mul_le_mono_nonneg_r; [lia|].
    apply Z.le_trans with (10 ^ (dig - 1) * 10 ^ e).
    + rewrite <- Z.pow_add_r by lia. apply Z.pow_le_mono_r; lia.
    + apply Z.mul_le_mono_nonneg_r; [apply Z.pow_nonneg; lia|lia].
Qed.

Theorem convert_ok s m dig e : 0 < m < 2 ^ 57 -> 10 ^ (dig - 1) <= m < 10 ^ dig -> 1 <= dig ->
  exists w, convert s m dig e = Ok (with_sign s w) /\ nearest m e w.
Proof.
  intros Hm Hdm Hd. unfold convert.
  destruct (Z.eqb_spec m 0) as [|_]; [lia|].
  destruct (Z.leb_spec (dig + e) (-324)).
  { exists 0. split; [reflexivity|]. apply (tiny_near m dig e); lia. }
  destruct (Z.leb_spec 310 (dig + e)).
  { exists inf_bits. split; [reflexivity|]. apply (huge_near m dig e); lia. }
  assert (Hd18 : dig <= 18).
  { destruct (Z.le_gt_cases dig 18); [assumption|exfalso].
    assert (10 ^ 18 <= 10 ^ (dig - 1)) by (apply Z.pow_le_mono_r; lia).
    assert (2 ^ 57 < 10 ^ 18) by (vm_compute; reflexivity). lia. }
  pose proof (Z.log2_spec m ltac:(lia)) as Hlog. rewrite <- Z.add_1_r in Hlog.
  assert (Hb : 0 <= Z.log2 m <= 56).
  { split; [apply Z.log2_nonneg|]. assert (Z.log2 m < 57) by (apply Z.log2_lt_pow2; lia). lia. }
  unfold floor_log2. destruct (Z.eqb_spec m 0) as [|_]; [lia|].
  set (b := Z.log2 m) in *. clearbody b. cbn [bind].
  pose proof (norm_bound m b Hb Hlog) as Hn.
  assert (Pb : 0 < 2 ^ (56 - b)) by (apply Z.pow_pos_nonneg; lia).
  destruct (Z.leb_spec 0 e) as [He|He].
  - (* e10 >= 0 *)
    destruct (ppos_exact e ltac:(lia)) as (mul & Hmul & HL & HP & HX). rewrite Hmul. 
    set (L := log2pow5 e) in *. unfold ceil_log2pow5. fold L. clearbody L.
    rewrite to_s32_small by lia. set (e2 := b + e + L - 53).
    replace (e2 - e - (L + 1) + 125) with (b + 71) by (unfold e2; lia).
    cbn [bind]. rewrite (HX m b Hb Hlog). cbn [bind].
    set (A := m * 2 ^ (56 - b) * 5 ^ e) in *. set (B := 2 ^ (L + 3)).
    assert (HB : 0 < B) by (apply Z.pow_pos_nonneg; lia).
    assert (P5 : 0 < 5 ^ e) by (apply Z.pow_pos_nonneg; lia).
    assert (HA : 0 <= A) by (unfold A; apply Z.mul_nonneg_nonneg; lia).
    assert (Hm2 : 2 ^ 53 <= A / B < 2 ^ 55).
    { unfold A, B. split; [apply Z.div_le_lower_bound; [lia|]|apply Z.div_lt_upper_bound; [lia|]].
      - apply Z.le_trans with (2 ^ 56 * 2 ^ L); [|apply Z.mul_le_mono_nonneg; lia].
        rewrite <- !Z.pow_add_r by lia. apply Z.pow_le_mono_r; lia.
      - apply Z.lt_le_trans with (2 ^ 57 * 2 ^ (L + 1)); [apply Z.mul_lt_mono_nonneg; lia|].
        rewrite <- !Z.pow_add_r by lia. apply Z.pow_le_mono_r; lia. }
    assert (T : exists tz, (if e2 <? e then Ok true else if e2 - e <? 64 then multipleOfPowerOf2 m (e2 - e) else Ok false) = Ok tz
                /\ (tz = true <-> A mod B = 0)).
    { destruct (Z.ltb_spec e2 e).
      - exists true. split; [reflexivity|]. split; [intros _|reflexivity].
        unfold A, B. replace (56 - b) with ((53 - b - L) + (L + 3)) by lia. rewrite Z.pow_add_r by (unfold e2 in *; lia).
        replace (m * (2 ^ (53 - b - L) * 2 ^ (L + 3)) * 5 ^ e) with (m * 2 ^ (53 - b - L) * 5 ^ e * 2 ^ (L + 3)) by ring.
        apply Z.mod_mul. lia.
      - assert (DD : A mod B = 0 <-> (2 ^ (e2 - e) | m)).
        { rewrite Z.mod_divide by lia. unfold A, B.
          replace (L + 3) with ((e2 - e) + (56 - b)) by (unfold e2; lia). rewrite Z.pow_add_r by (unfold e2 in *; lia).
          replace (m * 2 ^ (56 - b) * 5 ^ e) with (5 ^ e * m * 2 ^ (56 - b)) by ring.
          rewrite Z.mul_divide_cancel_r by lia. split.
          - intros D. apply Z.gauss with (5 ^ e); [exact D|]. apply coprime_pow; [reflexivity|lia|lia].
          - intros D. apply Z.divide_mul_r. exact D. }
        destruct (Z.ltb_spec (e2 - e) 64).
        + destruct (mult2_ok m (e2 - e) ltac:(lia)) as (z & Hz1 & Hz2). exists z. split; [exact Hz1|]. rewrite Hz2, DD. reflexivity.
        + exists false. split; [reflexivity|]. split; [discriminate|]. intros D. apply DD in D.
          apply Z.divide_pos_le in D; [|lia].
          assert (2 ^ 57 <= 2 ^ (e2 - e)) by (apply Z.pow_le_mono_r; lia). lia. }
    destruct T as (tz & HT & Htz). rewrite HT. cbn [bind].
    destruct (assemble_ok s A B (A / B) e2 tz HB HA eq_refl Htz Hm2 ltac:(unfold e2; lia)) as (w & Hw & HR).
    exists w. split; [exact Hw|]. unfold nearest. rewrite Z.max_l, Z.max_r by lia. change (10 ^ 0) with 1.
    specialize (HR (e2 + 1074) 0 ltac:(unfold e2; lia) ltac:(lia) ltac:(lia)).
    eapply rounds_ext; [| |  |exact HR]; [change (2 ^ 0) with 1; lia|lia|].
    change (2 ^ 0) with 1. rewrite !Z.mul_1_r. unfold A, B.
    change 10 with (2 * 5). rewrite Z.pow_mul_l.
    replace (m * (2 ^ e * 5 ^ e) * 2 ^ 1074 * 2 ^ (L + 3)) with (m * 5 ^ e * (2 ^ e * 2 ^ 1074 * 2 ^ (L + 3))) by ring.
    replace (m * 2 ^ (56 - b) * 5 ^ e * 2 ^ (e2 + 1074)) with (m * 5 ^ e * (2 ^ (56 - b) * 2 ^ (e2 + 1074))) by ring.
    f_equal. rewrite <- !Z.pow_add_r by (unfold e2; lia). f_equal. unfold e2. lia.
  - (* e10 < 0 *)
    remember (- e) as n eqn:En. assert (e = - n) by lia. subst e. clear En.
    destruct (pneg_exact n ltac:(lia)) as (mul & Hmul & HL & HP & HX). rewrite Hmul.
    set (L := log2pow5 n) in *. unfold ceil_log2pow5. fold L. clearbody L.
    rewrite to_s32_small by lia. set (e2 := b + - n - (L + 1) - 53).
    replace (e2 - - n + (L + 1) - 1 + 125) with (b + 71) by (unfold e2; lia).
    cbn [bind]. rewrite (HX m b Hb Hlog). cbn [bind].
    set (A := m * 2 ^ (56 - b) * 2 ^ (L - 2)) in *. set (B := 5 ^ n) in *.
    assert (HB : 0 < B) by (apply Z.pow_pos_nonneg; lia).
    assert (PL : 0 < 2 ^ (L - 2)) by (apply Z.pow_pos_nonneg; lia).
    assert (HA : 0 <= A) by (unfold A; apply Z.mul_nonneg_nonneg; lia).
    assert (Hm2 : 2 ^ 53 <= A / B < 2 ^ 55).
    { split; [apply Z.div_le_lower_bound; [lia|]|apply Z.div_lt_upper_bound; [lia|]].
      - apply Z.le_trans with (2 ^ 56 * 2 ^ (L - 2)); [|unfold A; apply Z.mul_le_mono_nonneg_r; lia].
        apply Z.le_trans with (2 ^ (L + 1) * 2 ^ 53); [apply Z.mul_le_mono_nonneg_r; lia|].
        rewrite <- !Z.pow_add_r by lia. apply Z.pow_le_mono_r; lia.
      - apply Z.lt_le_trans with (2 ^ 57 * 2 ^ (L - 2)); [unfold A; apply Z.mul_lt_mono_pos_r; lia|].
        apply Z.le_trans with (2 ^ L * 2 ^ 55); [|apply Z.mul_le_mono_nonneg_r; lia].
        rewrite <- !Z.pow_add_r by lia. apply Z.pow_le_mono_r; lia. }
    destruct (mult5_ok m n ltac:(lia) ltac:(lia)) as (tz & HT & Hz). rewrite HT. cbn [bind].
    assert (Htz : tz = true <-> A mod B = 0).
    { rewrite Hz, Z.mod_divide by lia. unfold A, B. split; intros D.
      - apply Z.divide_mul_l, Z.divide_mul_l. exact D.
      - apply Z.gauss with (2 ^ (56 - b) * 2 ^ (L - 2)).
        + replace (2 ^ (56 - b) * 2 ^ (L - 2) * m) with (m * 2 ^ (56 - b) * 2 ^ (L - 2)) by ring. exact D.
        + rewrite <- Z.pow_add_r by lia. apply coprime_pow; [reflexivity|lia|lia]. }
    assert (He2 : -1133 <= e2).
    { destruct (Z.le_gt_cases (-1133) e2) as [|Hc]; [assumption|exfalso].
      assert (X1 : 2 ^ (b + 1080) <= 10 ^ n).
      { change 10 with (2 * 5). rewrite Z.pow_mul_l. fold B.
        apply Z.le_trans with (2 ^ n * 2 ^ L); [|apply Z.mul_le_mono_nonneg_l; lia].
        rewrite <- Z.pow_add_r by lia. apply Z.pow_le_mono_r; [lia|]. unfold e2 in Hc. lia. }
      assert (X2 : 10 ^ n <= m * 10 ^ 324).
      { apply Z.le_trans with (10 ^ (dig - 1) * 10 ^ 324).
        - rewrite <- Z.pow_add_r by lia. apply Z.pow_le_mono_r; lia.
        - apply Z.mul_le_mono_nonneg_r; lia. }
      assert (X3 : 10 ^ 324 < 2 ^ 1079) by (vm_compute; reflexivity).
      assert (X4 : m * 10 ^ 324 < 2 ^ (b + 1) * 2 ^ 1079) by (apply Z.mul_lt_mono_nonneg; lia).
      rewrite <- Z.pow_add_r in X4 by lia. replace (b + 1 + 1079) with (b + 1080) in X4 by lia. lia. }
    destruct (assemble_ok s A B (A / B) e2 tz HB HA eq_refl Htz Hm2 ltac:(unfold e2 in *; lia)) as (w & Hw & HR).
    exists w. split; [exact Hw|]. unfold nearest. rewrite Z.max_r, Z.max_l by lia.
    rewrite Z.opp_involutive. change (10 ^ 0) with 1. rewrite Z.mul_1_r.
    specialize (HR (e2 + 1074 + 2000) 2000 ltac:(lia) ltac:(lia) ltac:(lia)).
    assert (P2 : 0 < 2 ^ 2000) by (apply Z.pow_pos_nonneg; lia).
    assert (P10 : 0 < 10 ^ n) by (apply Z.pow_pos_nonneg; lia).
    eapply rounds_ext; [| |  |exact HR]; [apply Z.mul_pos_pos; lia|lia|].
    change 10 with (2 * 5). rewrite Z.pow_mul_l. fold B. unfold A.
    replace (m * 2 ^ (56 - b) * 2 ^ (L - 2) * 2 ^ (e2 + 1074 + 2000) * (2 ^ n * B))
      with (m * B * (2 ^ (56 - b) * 2 ^ (L - 2) * 2 ^ (e2 + 1074 + 2000) * 2 ^ n)) by ring.
    replace (m * 2 ^ 1074 * (B * 2 ^ 2000)) with (m * B * (2 ^ 1074 * 2 ^ 2000)) by ring.
    f_equal. rewrite <- !Z.pow_add_r by lia. f_equal. unfold e2. lia.
Qed.
