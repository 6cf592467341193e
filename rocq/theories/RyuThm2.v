(** C40: the text printed for a finite number parses back to that number. *)
From Coq Require Import Ascii String.
From Verif Require Import Base SqueezeModel SqueezeProof RyuTable RyuModel RyuSpec RyuRound RyuDigits RyuPrint RyuText RyuParse RyuThm.
Open Scope list_scope.
Open Scope Z_scope.

Lemma lor52 mant : 0 <= mant < 2 ^ 52 -> Z.lor (2 ^ 52) mant = 2 ^ 52 + mant.
Proof. intros H. replace (2 ^ 52) with (1 * 2 ^ 52) at 1 by lia. rewrite lor_words by lia. lia. Qed.
Lemma dval_normal mant ex : 0 <= mant < 2 ^ 52 -> 1 <= ex -> dval (ex * 2 ^ 52 + mant) = (2 ^ 52 + mant) * 2 ^ (ex - 1).
Proof. intros H1 H2. replace (ex * 2 ^ 52 + mant) with ((ex - 1) * 2 ^ 52 + (2 ^ 52 + mant)) by lia. apply dval_combine; lia. Qed.

Lemma small_int_total mant ex : exists r, d2d_small_int mant ex = Ok r.
Proof.
  unfold d2d_small_int. destruct (Z.ltb_spec 0 (ex - 1023 - 52)); [eauto|].
  destruct (Z.ltb_spec (ex - 1023 - 52) (-52)); [eauto|]. unfold low_mask, shr64.
  destruct (Z.leb_spec 0 (- (ex - 1023 - 52))); [|lia]. destruct (Z.ltb_spec (- (ex - 1023 - 52)) 64); [|lia]. cbn [andb bind].
  destruct (Z.land _ _ =? 0); cbn [negb]; eauto.
Qed.
Lemma small_int_some mant ex m : 0 <= mant < 2 ^ 52 -> 0 <= ex <= 2046 -> d2d_small_int mant ex = Ok (Some m) ->
  1 <= m < 2 ^ 53 /\ dval (ex * 2 ^ 52 + mant) = m * 2 ^ 1074.
Proof.
  intros Hm He. unfold d2d_small_int. rewrite lor52 by exact Hm.
  destruct (Z.ltb_spec 0 (ex - 1023 - 52)) as [|H1]; [discriminate|]. destruct (Z.ltb_spec (ex - 1023 - 52) (-52)) as [|H2]; [discriminate|].
  set (s := - (ex - 1023 - 52)). assert (Hs : 0 <= s <= 52) by lia.
  unfold low_mask, shr64. destruct (Z.leb_spec 0 s); [|lia]. destruct (Z.ltb_spec s 64); [|lia]. cbn [andb bind].
  rewrite land_mask by lia. destruct (Z.eqb_spec ((2 ^ 52 + mant) mod 2 ^ s) 0) as [E|]; cbn [negb]; [|discriminate].
  cbn [bind]. intros HH.
  assert (Em : m = (2 ^ 52 + mant) / 2 ^ s) by exact (eq_sym (f_equal (fun r => match r with Ok (Some x) => x | _ => 0 end) HH)).
  clear HH. rewrite Em.
  assert (P : 0 < 2 ^ s) by (apply Z.pow_pos_nonneg; lia).
  pose proof (Z.div_mod (2 ^ 52 + mant) (2 ^ s) ltac:(lia)) as DM. rewrite E, Z.add_0_r in DM.
  assert (2 ^ s <= 2 ^ 52) by (apply Z.pow_le_mono_r; lia).
  split; [split|].
  - apply Z.div_le_lower_bound; lia.
  - apply Z.div_lt_upper_bound; [lia|]. assert (1 * 2 ^ 53 <= 2 ^ s * 2 ^ 53) by (apply Z.mul_le_mono_nonneg_r; lia). lia.
  - rewrite dval_normal by lia. rewrite DM at 1. set (v := (2 ^ 52 + mant) / 2 ^ s).
    replace 1074 with (s + (ex - 1)) by lia. rewrite Z.pow_add_r by lia. ring.
Qed.
Lemma small_int_none mant ex v : 0 <= mant < 2 ^ 52 -> 0 <= ex <= 2046 -> 1 <= v < 2 ^ 53 ->
  dval (ex * 2 ^ 52 + mant) = v * 2 ^ 1074 -> d2d_small_int mant ex <> Ok None.
Proof.
  intros Hm He Hv HD. unfold d2d_small_int. rewrite lor52 by exact Hm.
  assert (P : forall k, 0 <= k -> 0 < 2 ^ k) by (intros; apply Z.pow_pos_nonneg; lia).
  destruct (Z.eq_dec ex 0) as [->|E0].
  { exfalso. replace (0 * 2 ^ 52 + mant) with ((1 - 1) * 2 ^ 52 + mant) in HD by lia. rewrite dval_combine in HD by lia.
    change (2 ^ (1 - 1)) with 1 in HD. assert (2 ^ 52 < 2 ^ 1074) by (apply Z.pow_lt_mono_r; lia).
    assert (1 * 2 ^ 1074 <= v * 2 ^ 1074) by (apply Z.mul_le_mono_nonneg_r; lia). lia. }
  rewrite dval_normal in HD by lia.
  destruct (Z.ltb_spec 0 (ex - 1023 - 52)) as [H1|H1].
  { exfalso. replace (ex - 1) with (1 + 1074 + (ex - 1076)) in HD by lia. rewrite !Z.pow_add_r in HD by lia.
    pose proof (P 1074 ltac:(lia)) as P1. pose proof (P (ex - 1076) ltac:(lia)) as P2. change (2 ^ 1) with 2 in HD.
    set (A := 2 ^ 1074) in *. clearbody A. set (B := 2 ^ (ex - 1076)) in *. clearbody B.
    replace ((2 ^ 52 + mant) * (2 * A * B)) with ((2 ^ 52 + mant) * 2 * B * A) in HD by ring.
    apply Z.mul_reg_r in HD; [|lia].
    assert ((2 ^ 52 + mant) * 2 * 1 <= (2 ^ 52 + mant) * 2 * B) by (apply Z.mul_le_mono_nonneg_l; lia). lia. }
  destruct (Z.ltb_spec (ex - 1023 - 52) (-52)) as [H2|H2].
  { exfalso. replace 1074 with ((ex - 1) + (1075 - ex)) in HD by lia. rewrite Z.pow_add_r in HD by lia.
    pose proof (P (ex - 1) ltac:(lia)) as P1. set (A := 2 ^ (ex - 1)) in *. clearbody A.
    replace (v * (A * 2 ^ (1075 - ex))) with (v * 2 ^ (1075 - ex) * A) in HD by ring. apply Z.mul_reg_r in HD; [|lia].
    assert (2 ^ 53 <= 2 ^ (1075 - ex)) by (apply Z.pow_le_mono_r; lia).
    assert (1 * 2 ^ (1075 - ex) <= v * 2 ^ (1075 - ex)) by (apply Z.mul_le_mono_nonneg_r; lia). lia. }
  set (s := - (ex - 1023 - 52)). assert (Hs : 0 <= s <= 52) by lia.
  unfold low_mask, shr64. destruct (Z.leb_spec 0 s); [|lia]. destruct (Z.ltb_spec s 64); [|lia]. cbn [andb bind].
  rewrite land_mask by lia.
  assert (Ev : 2 ^ 52 + mant = v * 2 ^ s).
  { replace 1074 with (s + (ex - 1)) in HD by lia. rewrite Z.pow_add_r in HD by lia. rewrite Z.mul_assoc in HD.
    apply Z.mul_reg_r in HD; [exact HD|]. pose proof (P (ex - 1) ltac:(lia)). lia. }
  rewrite Ev, Z.mod_mul by (pose proof (P s ltac:(lia)); lia). cbn [Z.eqb negb bind]. discriminate.
Qed.

(** whole numbers below 2^53 are doubles *)
Lemma int_double v : 1 <= v < 2 ^ 53 -> exists b, 0 <= b <= inf_bits /\ dval b = v * 2 ^ 1074.
Proof.
  intros Hv. set (k := Z.log2 v). destruct (Z.log2_spec v ltac:(lia)) as [L1 L2]. fold k in L1, L2.
  assert (Hk : 0 <= k <= 52).
  { split; [apply Z.log2_nonneg|]. assert (k < 53); [|lia]. apply (Z.log2_lt_pow2 v 53); lia. }
  assert (P : 0 < 2 ^ (52 - k)) by (apply Z.pow_pos_nonneg; lia).
  assert (B1 : 2 ^ 52 <= v * 2 ^ (52 - k)).
  { replace (2 ^ 52) with (2 ^ k * 2 ^ (52 - k)) by (rewrite <- Z.pow_add_r by lia; f_equal; lia). apply Z.mul_le_mono_nonneg_r; lia. }
  assert (B2 : v * 2 ^ (52 - k) < 2 ^ 53).
  { replace (2 ^ 53) with (2 ^ Z.succ k * 2 ^ (52 - k)) by (rewrite <- Z.pow_add_r by lia; f_equal; lia). apply Z.mul_lt_mono_pos_r; lia. }
  exists ((1023 + k - 1) * 2 ^ 52 + v * 2 ^ (52 - k)). split; [unfold inf_bits; lia|].
  rewrite dval_combine by lia. rewrite <- Z.mul_assoc, <- Z.pow_add_r by lia. f_equal. f_equal. lia.
Qed.
Lemma int_nearest v b : 1 <= v < 2 ^ 53 -> nearest v 0 b -> dval b = v * 2 ^ 1074.
Proof.
  intros Hv. unfold nearest. change (10 ^ Z.max 0 0) with 1. change (10 ^ Z.max (- 0) 0) with 1. rewrite Z.mul_1_r. intros [Hb H].
  destruct (int_double v Hv) as (b' & Hb' & E). destruct (Z.eq_dec b' b) as [<-|Hne]; [exact E|].
  set (n := v * 2 ^ 1074) in *. clearbody n. specialize (H b' Hb' Hne). rewrite !Z.mul_1_l, E, Z.sub_diag in H.
  change (Z.abs 0) with 0 in H. lia.
Qed.
Lemma exact_nearest v b : 0 <= b <= inf_bits -> dval b = v * 2 ^ 1074 -> nearest v 0 b.
Proof.
  intros Hb E. unfold nearest. change (10 ^ Z.max 0 0) with 1. change (10 ^ Z.max (- 0) 0) with 1. rewrite Z.mul_1_r.
  split; [exact Hb|]. intros b' Hb' Hne. left. rewrite !Z.mul_1_l, E, Z.sub_diag. change (Z.abs 0) with 0.
  assert (dval b <> dval b').
  { destruct (Z.lt_ge_cases b b'); [pose proof (dval_lt b b' ltac:(lia))|pose proof (dval_lt b' b ltac:(lia))]; lia. }
  lia.
Qed.
Lemma nearest_shift m e b : 0 <= e -> nearest (m * 10 ^ e) 0 b <-> nearest m e b.
Proof.
  intros He. unfold nearest. rewrite (Z.max_l e 0), (Z.max_r (- e) 0) by lia. change (Z.max 0 0) with 0. change (Z.max (- 0) 0) with 0.
  change (10 ^ 0) with 1. rewrite Z.mul_1_r. reflexivity.
Qed.

Lemma strip_ok fuel : forall m e, 0 < m < 10 ^ Z.of_nat fuel -> 0 <= e ->
  exists m' e', strip_zeros (S fuel) m e = Ok (m', e') /\ e <= e' /\ 0 < m' /\ m * 10 ^ e = m' * 10 ^ e'.
Proof.
  induction fuel as [|f IH]; intros m e Hm He; [change (10 ^ Z.of_nat 0) with 1 in Hm; lia|].
  remember (S f) as sf. cbn [strip_zeros]. rewrite low_mod_ok by lia.
  destruct (Z.eqb_spec (m mod 10) 0) as [E|E]; cbn [negb].
  - subst sf. rewrite Nat2Z.inj_succ, Z.pow_succ_r in Hm by lia.
    destruct (IH (m / 10) (e + 1)) as (m' & e' & -> & H1 & H2 & H3); [lia|lia|].
    exists m', e'. split; [reflexivity|]. split; [lia|]. split; [exact H2|]. rewrite <- H3, Z.pow_add_r by lia.
    change (10 ^ 1) with 10. rewrite (Z.div_mod m 10) at 1 by lia. rewrite E. ring.
  - exists m, e. split; [reflexivity|]. lia.
Qed.

Definition finite (bits : Z) : Prop := 0 <= bits < 2 ^ 64 /\ bits mod 2 ^ 63 < inf_bits.

Lemma d2s_fields bits : finite bits -> exists mant ex sign,
  0 <= mant < 2 ^ 52 /\ 0 <= ex <= 2046 /\ bits = signed_bits sign (ex * 2 ^ 52 + mant) /\
  bits mod 2 ^ 63 = ex * 2 ^ 52 + mant /\
  negb (Z.land (bits / 2 ^ 63) 1 =? 0) = sign /\ Z.land bits (2 ^ 52 - 1) = mant /\ Z.land (bits / 2 ^ 52) 2047 = ex.
Proof.
  intros [Hb Hf]. unfold inf_bits in Hf.
  exists (bits mod 2 ^ 52), (bits mod 2 ^ 63 / 2 ^ 52), (2 ^ 63 <=? bits).
  rewrite land_one, land_mask by lia. change 2047 with (2 ^ 11 - 1). rewrite land_mask by lia.
  change (2 ^ 63) with 9223372036854775808 in *. change (2 ^ 64) with 18446744073709551616 in *.
  change (2 ^ 52) with 4503599627370496 in *. change (2 ^ 11) with 2048.
  unfold signed_bits. change (2 ^ 63) with 9223372036854775808.
  destruct (Z.leb_spec 9223372036854775808 bits); repeat split; try lia;
    match goal with |- negb ?x = _ => destruct (Z.eqb_spec (bits / 9223372036854775808 mod 2) 0); cbn [negb]; try reflexivity; lia end.
Qed.

(** the printed text of a finite number other than zero *)
Lemma d2s_text bits : finite bits -> bits mod 2 ^ 63 <> 0 -> exists t sign m x b,
  d2s bits = Ok t /\ bits = signed_bits sign b /\ b = bits mod 2 ^ 63 /\ numeral (map ascii t) sign m x /\ 0 <= m < 2 ^ 57 /\ nearest m x b /\ Z.of_nat (List.length t) < 1000.
Proof.
  intros HF H0. destruct (d2s_fields bits HF) as (mant & ex & sign & Hm & He & Eb & Ed & Es & Em & Ee).
  unfold d2s. rewrite Es, Em, Ee. rewrite Ed in H0.
  destruct (Z.eqb_spec ex 2047) as [|_]; [lia|]. cbn [orb].
  assert (Hz : (ex =? 0) && (mant =? 0) = false) by (destruct (Z.eqb_spec ex 0), (Z.eqb_spec mant 0); try reflexivity; lia).
  rewrite Hz. set (b := ex * 2 ^ 52 + mant) in *.
  assert (Hb : 0 <= b <= inf_bits) by (unfold b, inf_bits; lia).
  assert (Fin : forall m x force, 0 < m < 2 ^ 57 -> -400 < x < 400 -> (0 < x -> 10 ^ 15 <= m * 10 ^ x) -> (force = true -> x = 0) -> nearest m x b ->
     exists t sign0 m0 x0 b0, to_chars m x sign force = Ok t /\ bits = signed_bits sign0 b0 /\ b0 = bits mod 2 ^ 63 /\
       numeral (map ascii t) sign0 m0 x0 /\ 0 <= m0 < 2 ^ 57 /\ nearest m0 x0 b0 /\ Z.of_nat (List.length t) < 1000).
  { intros m x force H1 H2 H3 H4 H5. destruct (to_chars_ok m x sign force H1 H2 H3 H4) as (t & ds & E1 & E2 & E3 & _).
    exists t, sign, m, x, b. repeat split; try assumption; try lia; try apply H5. }
  destruct (d2d_small_int mant ex) as [[m|]| |] eqn:SI.
  - destruct (small_int_some mant ex m Hm He SI) as [Hv HD]. fold b in HD. cbn [bind].
    pose proof (exact_nearest m b Hb HD) as Hn.
    destruct (Z.ltb_spec m 1000000000000000) as [Hs|Hs].
    + apply Fin; [lia|lia|lia|reflexivity|exact Hn].
    + destruct (strip_ok 39 m 0) as (m' & e' & E & H1 & H2 & H3); [|lia|].
      { assert (2 ^ 53 < 10 ^ Z.of_nat 39) by (vm_compute; reflexivity). lia. }
      rewrite E. cbn [bind]. change (10 ^ 0) with 1 in H3. rewrite Z.mul_1_r in H3.
      assert (P : 0 < 10 ^ e') by (apply Z.pow_pos_nonneg; lia).
      assert (m' <= m) by (rewrite H3; assert (m' * 1 <= m' * 10 ^ e') by (apply Z.mul_le_mono_nonneg_l; lia); lia).
      assert (e' < 400).
      { destruct (Z.lt_ge_cases e' 400); [assumption|exfalso]. assert (10 ^ 17 <= 10 ^ e') by (apply Z.pow_le_mono_r; lia).
        assert (1 * 10 ^ e' <= m' * 10 ^ e') by (apply Z.mul_le_mono_nonneg_r; lia).
        assert (2 ^ 53 < 10 ^ 17) by (vm_compute; reflexivity). lia. }
      apply Fin; [lia|lia| |discriminate|].
      * intros _. rewrite <- H3. change (10 ^ 15) with 1000000000000000. lia.
      * apply nearest_shift; [lia|]. rewrite <- H3. exact Hn.
  - cbn [bind]. destruct (d2d_ok mant ex Hm He ltac:(fold b; lia)) as (o & x & -> & Ho & Hx & Hn). cbn [bind]. fold b in Hn.
    apply Fin; [exact Ho|exact Hx| |discriminate|exact Hn].
    intros Hx0. destruct (Z.le_gt_cases (10 ^ 15) (o * 10 ^ x)) as [|Hlt]; [assumption|exfalso].
    assert (P : 0 < 10 ^ x) by (apply Z.pow_pos_nonneg; lia).
    assert (V : 1 <= o * 10 ^ x < 2 ^ 53).
    { assert (10 ^ 15 < 2 ^ 53) by (vm_compute; reflexivity). assert (1 * 1 <= o * 10 ^ x) by (apply Z.mul_le_mono_nonneg; lia). lia. }
    apply (small_int_none mant ex (o * 10 ^ x) Hm He V); [|exact SI].
    fold b. apply (int_nearest _ b V). apply nearest_shift; [lia|exact Hn].
  - destruct (small_int_total mant ex) as [r Er]; congruence.
  - destruct (small_int_total mant ex) as [r Er]; congruence.
Qed.

(** the text of every finite number other than zero is a numeral, and •ParseFloat of it is the number *)
Theorem C40_roundtrip bits : finite bits -> bits mod 2 ^ 63 <> 0 -> exists t,
  d2s bits = Ok t /\ (exists neg m e, numeral (map ascii t) neg m e) /\ parse_float (map ascii t) = Ok bits.
Proof.
  intros HF H0. destruct (d2s_text bits HF H0) as (t & sign & m & x & b & E & Eb & Ed & HN & Hm & Hn & HL).
  exists t. split; [exact E|]. split; [eauto|].
  destruct (parse_57 (map ascii t) sign m x HN) as (b' & -> & Hn'); [rewrite map_length; lia|exact Hm|].
  rewrite Eb. do 2 f_equal. eapply rounds_unique; [|exact Hn'|exact Hn]. apply Z.pow_pos_nonneg; lia.
Qed.
Print Assumptions C40_roundtrip.

(** different numbers have different texts *)
Theorem C40_injective a b t : finite a -> finite b -> a mod 2 ^ 63 <> 0 -> b mod 2 ^ 63 <> 0 -> d2s a = Ok t -> d2s b = Ok t -> a = b.
Proof.
  intros Fa Fb Na Nb Ea Eb. destruct (C40_roundtrip a Fa Na) as (ta & E1 & _ & P1). destruct (C40_roundtrip b Fb Nb) as (tb & E2 & _ & P2).
  congruence.
Qed.
Print Assumptions C40_injective.

(** both zeros print as 0, which parses as the positive one *)
Theorem C40_zero bits : bits = 0 \/ bits = 2 ^ 63 -> d2s bits = Ok (chars "0"%string) /\ parse_float (chars "0"%string) = Ok 0.
Proof. intros [->| ->]; split; vm_compute; reflexivity. Qed.
Print Assumptions C40_zero.

(** whole numbers below 10^15 are printed as their digits, without leading zeros, dot or exponent *)
Theorem C40_integer bits v : finite bits -> 1 <= v < 10 ^ 15 -> dval (bits mod 2 ^ 63) = v * 2 ^ 1074 -> exists ds,
  d2s bits = Ok ((if 2 ^ 63 <=? bits then [175] else []) ++ ds) /\ Forall digit ds /\ number ds = v /\ 10 ^ (Z.of_nat (List.length ds) - 1) <= v.
Proof.
  intros HF Hv HD. assert (10 ^ 15 < 2 ^ 53) by (vm_compute; reflexivity).
  destruct (d2s_fields bits HF) as (mant & ex & sign & Hm & He & Eb & Ed & Es & Em & Ee). rewrite Ed in HD.
  unfold d2s. rewrite Es, Em, Ee. destruct (Z.eqb_spec ex 2047) as [|_]; [lia|]. cbn [orb].
  assert (Hb0 : ex * 2 ^ 52 + mant <> 0).
  { intros E0. rewrite E0 in HD. change (dval 0) with 0 in HD. assert (0 < 2 ^ 1074) by (apply Z.pow_pos_nonneg; lia).
    assert (0 < v * 2 ^ 1074) by (apply Z.mul_pos_pos; lia). lia. }
  assert (Hz : (ex =? 0) && (mant =? 0) = false) by (destruct (Z.eqb_spec ex 0), (Z.eqb_spec mant 0); try reflexivity; lia).
  rewrite Hz.
  assert (Sg : (2 ^ 63 <=? bits) = sign).
  { rewrite Eb. unfold signed_bits. destruct sign; [destruct (Z.leb_spec (2 ^ 63) (2 ^ 63 + (ex * 2 ^ 52 + mant))); lia|].
    destruct (Z.leb_spec (2 ^ 63) (ex * 2 ^ 52 + mant)); lia. }
  pose proof (small_int_none mant ex v Hm He ltac:(lia) HD) as NN.
  destruct (d2d_small_int mant ex) as [[m|]| |] eqn:SI.
  - destruct (small_int_some mant ex m Hm He SI) as [Hmv HD']. cbn [bind].
    assert (m = v) as ->. { rewrite HD in HD'. apply Z.mul_reg_r in HD'; [lia|]. assert (0 < 2 ^ 1074) by (apply Z.pow_pos_nonneg; lia). lia. }
    destruct (Z.ltb_spec v 1000000000000000) as [_|Hc]; [|change (10 ^ 15) with 1000000000000000 in Hv; lia].
    destruct (to_chars_ok v 0 sign true) as (t & ds & E & _ & _ & (D1 & D2 & D3) & Ht); [lia|lia|lia|reflexivity|].
    rewrite E, (Ht eq_refl), Sg. exists ds. split; [reflexivity|auto].
  - congruence.
  - destruct (small_int_total mant ex) as [r Er]; congruence.
  - destruct (small_int_total mant ex) as [r Er]; congruence.
Qed.
Print Assumptions C40_integer.

(** what is not finite has no numeral: the infinities and NaN *)
Theorem C40_special : d2s inf_bits = Ok [8734] /\ d2s (2 ^ 63 + inf_bits) = Ok [175; 8734] /\
  forall bits, 0 <= bits < 2 ^ 64 -> inf_bits < bits mod 2 ^ 63 -> d2s bits = Ok (chars "NaN"%string).
Proof.
  split; [vm_compute; reflexivity|]. split; [vm_compute; reflexivity|]. intros bits Hb Hi. unfold inf_bits in Hi.
  unfold d2s. change 2047 with (2 ^ 11 - 1) in *. rewrite !land_mask by lia.
  replace (bits / 2 ^ 52 mod 2 ^ 11) with 2047.
  2: { change (2 ^ 63) with 9223372036854775808 in *. change (2 ^ 64) with 18446744073709551616 in *. change (2 ^ 52) with 4503599627370496 in *. change (2 ^ 11) with 2048 in *. lia. }
  change (2047 =? 2 ^ 11 - 1) with true. cbn [orb].
  destruct (Z.eqb_spec (bits mod 2 ^ 52) 0) as [E|]; cbn [negb]; [|reflexivity].
  exfalso. change (2 ^ 63) with 9223372036854775808 in *. change (2 ^ 64) with 18446744073709551616 in *. change (2 ^ 52) with 4503599627370496 in *. change (2 ^ 11) with 2048 in *. lia.
Qed.
Print Assumptions C40_special.

(** cases: 0.1, ¯1.5, the least and the greatest double, 2^53, 123456 *)
Example print_tenth : finite 4591870180066957722 /\ d2s 4591870180066957722 = Ok (chars "0.1"%string).
Proof. split; [split; vm_compute; intuition discriminate|vm_compute; reflexivity]. Qed.
Example print_neg : d2s (2 ^ 63 + 4609434218613702656) = Ok (175 :: chars "1.5"%string).
Proof. vm_compute. reflexivity. Qed.
Example print_least : d2s 1 = Ok (chars "5e"%string ++ [175] ++ chars "324"%string).
Proof. vm_compute. reflexivity. Qed.
Example print_greatest : finite (inf_bits - 1) /\ d2s (inf_bits - 1) = Ok (chars "1.7976931348623157e308"%string).
Proof. split; [split; vm_compute; intuition discriminate|vm_compute; reflexivity]. Qed.
Example print_2p53 : d2s (1076 * 2 ^ 52) = Ok (chars "9.007199254740992e15"%string).
Proof. vm_compute. reflexivity. Qed.
Example print_int : dval 4683220244930494464 = 123456 * 2 ^ 1074 /\ d2s 4683220244930494464 = Ok (chars "123456"%string).
Proof. split; vm_compute; reflexivity. Qed.
