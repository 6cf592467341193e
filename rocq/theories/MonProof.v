(** The arithmetic on doubles *)
From Verif Require Import Base TagModel TagSpec TagProof NumSpec NumProof ArrSpec SqueezeModel SqueezeProof HashModel PervModel PervSpec PervProof MonModel MonSpec.
From Verif Require ArithModel ArithSpec ArithProof.
From Coq Require Import List Lia.
Open Scope Z_scope.
Notation is_double := ArithSpec.is_double.
Notation rnd := ArithModel.rnd.

Definition big : Z := 2 ^ 2098.
Lemma fval_double w : word w -> is_double (fval w).
Proof.
  intros W. destruct (NumProof.parts w W) as (_ & S01 & E & F). assert (M : exists m e, 0 <= e /\ 0 <= m < 2 ^ 53 /\ fmag w = m * 2 ^ e).
  { unfold fmag. destruct (Z.eqb_spec (exponent w) 0); [exists (fraction w), 0|exists (2 ^ 52 + fraction w), (exponent w - 1)]; (split; [lia|]); split; try lia. }
  destruct M as (m & e & E0 & M & Q). unfold fval. rewrite Q. destruct (sign w =? 1); [exists (- m), e|exists m, e]; (split; [lia|]); split; try lia.
Qed.
Lemma fval_bound w : word w -> is_nan w = false -> Z.abs (fval w) <= big - 2 ^ 2045 \/ Z.abs (fval w) = big.
Proof.
  intros W N. destruct (NumProof.parts w W) as (_ & S01 & E & F). assert (A : Z.abs (fval w) = fmag w) by (pose proof (fmag_nonneg w); unfold fval; destruct (sign w =? 1); lia). rewrite A.
  unfold is_nan in N. unfold fmag. destruct (Z.eqb_spec (exponent w) 2047) as [X|X].
  - cbn [andb] in N. apply negb_false_iff, Z.eqb_eq in N. right. rewrite X, N. reflexivity.
  - left. destruct (Z.eqb_spec (exponent w) 0) as [Y|Y].
    + assert (2 ^ 52 <= big - 2 ^ 2045) by (unfold big; lia). lia.
    + assert (2 ^ (exponent w - 1) <= 2 ^ 2045) by (apply Z.pow_le_mono_r; lia). assert (0 < 2 ^ (exponent w - 1)) by (apply Z.pow_pos_nonneg; lia).
      assert (B : big - 2 ^ 2045 = (2 ^ 53 - 1) * 2 ^ 2045) by reflexivity. rewrite B. apply Z.mul_le_mono_nonneg; lia.
Qed.
Lemma fenc_ok neg v : is_double v -> Z.abs v <= big -> word (fenc neg v) /\ is_nan (fenc neg v) = false /\ fval (fenc neg v) = v.
Proof.
  intros (m & e & E & M & Q) B. unfold fenc. destruct (Z.eqb_spec v 0) as [ -> |NZ].
  { destruct neg; (split; [split; [discriminate|reflexivity]|]); split; reflexivity. }
  set (a := Z.abs v) in *. assert (A : 0 < a) by lia. set (sg := if v <? 0 then 1 else 0).
  assert (ES : (if v <? 0 then 2 ^ 63 else 0) = sg * 2 ^ 63) by (unfold sg; destruct (v <? 0); reflexivity). rewrite ES. assert (SG : 0 <= sg <= 1) by (unfold sg; destruct (v <? 0); lia).
  assert (VA : v = if sg =? 1 then - a else a) by (unfold sg, a; destruct (Z.ltb_spec v 0); cbn [Z.eqb Pos.eqb]; lia).
  destruct (Z.ltb_spec a (2 ^ 52)) as [L|L].
  - destruct (parts_of sg 0 a SG ltac:(lia) ltac:(lia)) as (W & S' & E' & F'). cbn [Z.mul] in W, S', E', F'. rewrite Z.add_0_r in W, S', E', F'.
    split; [exact W|]. unfold is_nan, fval, fmag. rewrite S', E', F'. split; [reflexivity|]. cbn [Z.eqb]. symmetry. exact VA.
  - set (k := Z.log2 a). destruct (Z.log2_spec a A) as [L1 L2]. fold k in L1, L2.
    assert (K : 52 <= k) by (apply Z.log2_le_pow2; lia). assert (K' : k <= 2098) by (apply Z.lt_succ_r, Z.log2_lt_pow2; [lia|]; apply Z.le_lt_trans with (2 ^ 2098); [exact B|apply Z.pow_lt_mono_r; lia]).
    assert (P : 0 < 2 ^ (k - 52)) by (apply Z.pow_pos_nonneg; lia).
    assert (D : (2 ^ (k - 52) | a)).
    { assert (QA : a = Z.abs m * 2 ^ e) by (unfold a; rewrite Q, Z.abs_mul; f_equal; apply Z.abs_eq, Z.pow_nonneg; lia). assert (PE : 0 < 2 ^ e) by (apply Z.pow_pos_nonneg; lia).
      destruct (Z.le_gt_cases (k - 52) e) as [C|C].
      - rewrite QA. apply Z.divide_mul_r. exists (2 ^ (e - (k - 52))). rewrite <- Z.pow_add_r by lia. f_equal. lia.
      - assert (a <= 2 ^ k). { rewrite QA. apply Z.le_trans with (2 ^ 53 * 2 ^ e); [apply Z.mul_le_mono_nonneg_r; lia|]. rewrite <- Z.pow_add_r by lia. apply Z.pow_le_mono_r; lia. }
        assert (X : a = 2 ^ k) by lia. rewrite X. exists (2 ^ 52). rewrite <- Z.pow_add_r by lia. f_equal. lia. }
    destruct D as [q D]. assert (DQ : a / 2 ^ (k - 52) = q) by (rewrite D; apply Z.div_mul; lia). rewrite DQ.
    assert (QB : 2 ^ 52 <= q < 2 ^ 53).
    { assert (T1 : 2 ^ k = 2 ^ 52 * 2 ^ (k - 52)) by (rewrite <- Z.pow_add_r by lia; f_equal; lia). assert (T2 : 2 ^ Z.succ k = 2 ^ 53 * 2 ^ (k - 52)) by (rewrite <- Z.pow_add_r by lia; f_equal; lia). rewrite T1, D in L1. rewrite T2, D in L2.
      split; [apply Z.mul_le_mono_pos_r in L1; assumption|apply Z.mul_lt_mono_pos_r in L2; assumption]. }
    assert (Q63 : 2 ^ 53 = 2 * 2 ^ 52) by reflexivity.
    destruct (parts_of sg (k - 51) (q - 2 ^ 52) SG ltac:(lia) ltac:(lia)) as (W & S' & E' & F').
    split; [exact W|]. unfold is_nan, fval, fmag. rewrite S', E', F'. split.
    + destruct (Z.eqb_spec (k - 51) 2047) as [X|X]; [|reflexivity]. cbn [andb]. apply negb_false_iff, Z.eqb_eq.
      assert (KK : k = 2098) by lia. assert (a = big) by (unfold big in *; rewrite KK in L1; apply Z.le_antisymm; assumption). assert (q * 2 ^ 2046 = 2 ^ 52 * 2 ^ 2046). { rewrite KK in D. change (2098 - 52) with 2046 in D. rewrite <- D, H. reflexivity. }
      apply Z.mul_reg_r in H0; lia.
    + destruct (Z.eqb_spec (k - 51) 0); [lia|]. assert (R : (2 ^ 52 + (q - 2 ^ 52)) * 2 ^ (k - 51 - 1) = a) by (rewrite D; f_equal; [lia|f_equal; lia]). rewrite R. symmetry. exact VA.
Qed.
Lemma neg_double z : is_double z -> is_double (- z).
Proof. intros (m & e & E & M & ->). exists (- m), e. split; auto. split; [lia|ring]. Qed.
Lemma one_double n : - 2 ^ 53 <= n <= 2 ^ 53 -> is_double (n * one).
Proof. intros B. exists n, 1074. split; [lia|]. split; [exact B|reflexivity]. Qed.
Lemma rnd_id z : is_double z -> rnd z = z.
Proof. intros D. destruct (ArithProof.rnd_nearest z) as [_ N]. specialize (N z D). rewrite Z.sub_diag in N. cbn in N. lia. Qed.
Lemma floor_double w : word w -> is_double (fval w / one * one).
Proof.
  intros W. pose proof one_pos as O1. destruct (Z.le_gt_cases (2 ^ 53 * one) (Z.abs (fval w))) as [B|B].
  - enough (D : (one | fval w)) by (destruct D as [q D]; rewrite D at 1; rewrite Z.div_mul, <- D by lia; apply fval_double, W).
    assert (A : Z.abs (fval w) = fmag w) by (pose proof (fmag_nonneg w); unfold fval; destruct (sign w =? 1); lia). rewrite A in B.
    assert (X : exponent w <> 0) by (intros X; pose proof (fmag_small w W X) as Sm; assert (2 ^ 52 <= 2 ^ 53 * one) by (unfold one; lia); lia).
    destruct (fmag_bounds w W X) as [_ U]. assert (E : 1127 < exponent w + 52). { apply (Z.pow_lt_mono_r_iff 2); [lia|destruct (NumProof.parts w W) as (_ & _ & E & _); lia|]. eapply Z.le_lt_trans; [|exact U]. eapply Z.le_trans; [|exact B]. unfold one. rewrite <- Z.pow_add_r by lia. apply Z.pow_le_mono_r; lia. }
    assert (D : (one | fmag w)). { unfold fmag. destruct (Z.eqb_spec (exponent w) 0); [contradiction|]. apply Z.divide_mul_r. exists (2 ^ (exponent w - 1 - 1074)). unfold one. rewrite <- Z.pow_add_r by lia. f_equal. lia. }
    unfold fval. destruct (sign w =? 1); [apply Z.divide_opp_r|]; exact D.
  - apply one_double. split; [apply Z.div_le_lower_bound; lia|]. apply Z.lt_le_incl, Z.div_lt_upper_bound; lia.
Qed.
Lemma one_big : one <= 2 ^ 2045. Proof. apply Z.pow_le_mono_r; lia. Qed.
Lemma div_near x : 0 <= x - x / one * one < one.
Proof. pose proof one_pos as O1. pose proof (Z.div_mod x one ltac:(lia)). pose proof (Z.mod_pos_bound x one O1). lia. Qed.
Lemma big_div : big = 2 ^ 1024 * one /\ - big = - 2 ^ 1024 * one. Proof. split; reflexivity. Qed.
Lemma floor_bound x : Z.abs x <= big - 2 ^ 2045 \/ Z.abs x = big -> Z.abs (x / one * one) <= big.
Proof.
  intros [B|B]; [pose proof (div_near x); pose proof one_big; lia|].
  assert (X : x = 2 ^ 1024 * one \/ x = - 2 ^ 1024 * one) by (destruct big_div; lia). pose proof one_pos as O1. destruct X as [ -> | -> ]; rewrite Z.div_mul by lia; destruct big_div; lia.
Qed.
Lemma ffloor_ok w : word w -> is_nan w = false -> word (ffloor w) /\ is_nan (ffloor w) = false /\ fval (ffloor w) = fval w / one * one.
Proof. intros W N. unfold ffloor. rewrite N. apply fenc_ok; [apply floor_double, W|apply floor_bound, fval_bound; assumption]. Qed.
Lemma fneg_ok w : word w -> word (fneg w) /\ fval (fneg w) = - fval w /\ exponent (fneg w) = exponent w /\ fraction (fneg w) = fraction w.
Proof.
  intros W. destruct (NumProof.parts w W) as (U & S01 & E & F). assert (X : fneg w = (1 - sign w) * 2 ^ 63 + exponent w * 2 ^ 52 + fraction w).
  { unfold fneg. assert (exponent w * 2 ^ 52 + fraction w < 2 ^ 63) by lia. destruct (Z.ltb_spec w (2 ^ 63)); assert (sign w = 0 \/ sign w = 1) as [G|G] by lia; rewrite G in *; lia. }
  destruct (parts_of (1 - sign w) (exponent w) (fraction w)) as (W' & S' & E' & F'); [lia|exact E|exact F|]. rewrite <- X in W', S', E', F'. split; [exact W'|]. split; [|auto].
  unfold fval, fmag. rewrite S', E', F'. assert (sign w = 0 \/ sign w = 1) as [G|G] by lia; rewrite G; cbn [Z.eqb Z.sub Z.add Z.opp Pos.eqb Z.pos_sub]; lia.
Qed.
Lemma fabs_ok w : word w -> word (fabs w) /\ fval (fabs w) = Z.abs (fval w) /\ exponent (fabs w) = exponent w /\ fraction (fabs w) = fraction w.
Proof.
  intros W. destruct (NumProof.parts w W) as (U & S01 & E & F). assert (X : fabs w = 0 * 2 ^ 63 + exponent w * 2 ^ 52 + fraction w).
  { unfold fabs. rewrite U at 1. rewrite <- Z.add_assoc, Z.add_comm, Z_mod_plus_full. apply Z.mod_small. lia. }
  destruct (parts_of 0 (exponent w) (fraction w)) as (W' & S' & E' & F'); [lia|exact E|exact F|]. rewrite <- X in W', S', E', F'. split; [exact W'|]. split; [|auto].
  pose proof (fmag_nonneg w) as P. unfold fval. rewrite S'. cbn [Z.eqb]. assert (fmag (fabs w) = fmag w) as -> by (unfold fmag; rewrite E', F'; reflexivity). destruct (sign w =? 1); lia.
Qed.
Lemma fceil_ok w : word w -> is_nan w = false -> word (fceil w) /\ is_nan (fceil w) = false /\ fval (fceil w) = - (- fval w / one * one).
Proof.
  intros W N. unfold fceil. rewrite N. destruct (fneg_ok w W) as (W' & V & E & F). apply fenc_ok.
  - apply neg_double. rewrite <- V. apply floor_double, W'.
  - rewrite Z.abs_opp. apply floor_bound. rewrite Z.abs_opp. apply fval_bound; assumption.
Qed.
Lemma fsub_ok c w : c = 0 \/ c = 1 -> word w -> is_nan w = false -> word (fsub c w) /\ is_nan (fsub c w) = false /\ fval (fsub c w) = rnd (c * one - fval w).
Proof.
  intros C W N. unfold fsub. rewrite N. apply fenc_ok; [apply ArithProof.rnd_double|]. pose proof (neg_double _ (fval_double w W)) as D. pose proof one_pos as O1.
  destruct (fval_bound w W N) as [B|B].
  - destruct (ArithProof.rnd_nearest (c * one - fval w)) as [_ Q]. specialize (Q _ D). assert (2 * one <= 2 ^ 2045) by (change (2 * one) with (2 ^ 1075); apply Z.pow_le_mono_r; lia). destruct C as [ -> | -> ]; lia.
  - assert (X : fval w = big \/ fval w = - big) by lia. destruct X as [X|X], C as [ -> | -> ]; rewrite X; apply Z.leb_le; vm_compute; reflexivity.
Qed.
