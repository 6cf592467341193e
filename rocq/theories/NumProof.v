(** Facts about binary64 patterns. *)
From Verif Require Import Base TagSpec NumSpec.

Lemma one_pos : 0 < one. Proof. apply Z.pow_pos_nonneg; lia. Qed.
Lemma parts u : word u -> u = sign u * 2^63 + exponent u * 2^52 + fraction u /\ 0 <= sign u <= 1 /\ 0 <= exponent u < 2048 /\ 0 <= fraction u < 2^52.
Proof. unfold word, sign, exponent, fraction. change (2^64) with 18446744073709551616. change (2^63) with 9223372036854775808. change (2^52) with 4503599627370496. change (2^11) with 2048. intros. lia. Qed.
Lemma parts_of s e f : 0 <= s <= 1 -> 0 <= e < 2048 -> 0 <= f < 2^52 ->
  let u := s * 2^63 + e * 2^52 + f in word u /\ sign u = s /\ exponent u = e /\ fraction u = f.
Proof. cbv zeta. unfold word, sign, exponent, fraction. change (2^64) with 18446744073709551616. change (2^63) with 9223372036854775808. change (2^52) with 4503599627370496. change (2^11) with 2048. intros. repeat split; lia. Qed.
Lemma fmag_nonneg u : 0 <= fmag u.
Proof.
  unfold fmag. assert (0 <= fraction u) by (unfold fraction; apply Z.mod_pos_bound; reflexivity).
  destruct (Z.eqb_spec (exponent u) 0); [auto|]. apply Z.mul_nonneg_nonneg; [|apply Z.pow_nonneg; lia]. assert (0 < 2^52) by reflexivity. lia.
Qed.

Lemma of_int_parts n : Z.abs n < 2^53 -> n <> 0 -> let k := Z.log2 (Z.abs n) in 0 <= k <= 52 /\
  word (of_int n) /\ sign (of_int n) = (if n <? 0 then 1 else 0) /\ exponent (of_int n) = k + 1023 /\ fraction (of_int n) = Z.abs n * 2^(52-k) - 2^52.
Proof.
  intros B N k. assert (P : 0 < Z.abs n) by lia. assert (L := Z.log2_spec (Z.abs n) P). fold k in L. assert (K0 : 0 <= k) by apply Z.log2_nonneg.
  assert (K1 : k <= 52). { assert (Q : k < 53); [|lia]. apply Z.log2_lt_pow2; lia. }
  assert (F : 2^52 <= Z.abs n * 2^(52-k) < 2^53).
  { assert (E1 : 2^k * 2^(52-k) = 2^52) by (rewrite <- Z.pow_add_r by lia; f_equal; lia).
    assert (E2 : 2^(Z.succ k) * 2^(52-k) = 2^53) by (rewrite <- Z.pow_add_r by lia; f_equal; lia).
    assert (0 < 2^(52-k)) by (apply Z.pow_pos_nonneg; lia). nia. }
  split; [lia|].
  assert (Q := parts_of (if n <? 0 then 1 else 0) (k+1023) (Z.abs n * 2^(52-k) - 2^52)).
  cbv zeta in Q. unfold of_int. destruct (Z.eqb_spec n 0); [contradiction|]. cbv zeta. fold k.
  replace (if n <? 0 then 2^63 else 0) with ((if n <? 0 then 1 else 0) * 2^63) by (destruct (n <? 0); reflexivity).
  apply Q; [destruct (n <? 0); lia|lia|]. change (2^53) with (2 * 2^52) in F. lia.
Qed.
Lemma of_int_val n : Z.abs n < 2^53 -> word (of_int n) /\ is_int (of_int n) n.
Proof.
  intros B. destruct (Z.eq_dec n 0) as [->|N].
  - split; [split; reflexivity|]. split; reflexivity.
  - destruct (of_int_parts n B N) as (K&W&Sg&E&F). split; auto. set (k := Z.log2 (Z.abs n)) in *. unfold is_int, is_nan, fval, fmag. rewrite Sg, E, F. split.
    + destruct (Z.eqb_spec (k+1023) 2047); [lia|]. reflexivity.
    + destruct (Z.eqb_spec (k+1023) 0); [lia|].
      replace ((2^52 + (Z.abs n * 2^(52-k) - 2^52)) * 2^(k+1023-1)) with (Z.abs n * one).
      2:{ replace (2^52 + (Z.abs n * 2^(52-k) - 2^52)) with (Z.abs n * 2^(52-k)) by ring. rewrite <- Z.mul_assoc, <- Z.pow_add_r by lia. unfold one. do 2 f_equal. lia. }
      destruct (Z.ltb_spec n 0); cbn [Z.eqb Pos.eqb]; lia.
Qed.
Lemma is_int_inj u a b : is_int u a -> is_int u b -> a = b.
Proof. intros (_&A) (_&B). rewrite A in B. apply Z.mul_reg_r in B; auto. assert (Q := one_pos). lia. Qed.
Lemma is_int_trunc u n : is_int u n -> ftrunc u = n.
Proof. intros (_&A). unfold ftrunc. rewrite A. apply Z.quot_mul. assert (Q := one_pos). lia. Qed.

(** magnitudes are ordered as the low 63 bits *)
Definition low63 (u : Z) : Z := exponent u * 2^52 + fraction u.
Lemma fmag_bounds u : word u -> exponent u <> 0 -> 2^(exponent u + 51) <= fmag u < 2^(exponent u + 52).
Proof.
  intros W N. destruct (parts u W) as (_&_&E&F). unfold fmag. destruct (Z.eqb_spec (exponent u) 0); [contradiction|].
  replace (exponent u + 51) with (52 + (exponent u - 1)) by lia. replace (exponent u + 52) with (53 + (exponent u - 1)) by lia. rewrite !Z.pow_add_r by lia.
  assert (0 < 2^(exponent u - 1)) by (apply Z.pow_pos_nonneg; lia). change (2^53) with (2 * 2^52). nia.
Qed.
Lemma fmag_small u : word u -> exponent u = 0 -> 0 <= fmag u < 2^52.
Proof. intros W N. destruct (parts u W) as (_&_&E&F). unfold fmag. rewrite N. cbn [Z.eqb]. lia. Qed.
Lemma low63_lt a b : word a -> word b -> (low63 a < low63 b <-> exponent a < exponent b \/ exponent a = exponent b /\ fraction a < fraction b).
Proof.
  intros A B. destruct (parts a A) as (_&_&Ea&Fa). destruct (parts b B) as (_&_&Eb&Fb). unfold low63. change (2^52) with 4503599627370496 in *. lia.
Qed.
Lemma fmag_mono a b : word a -> word b -> low63 a < low63 b -> fmag a < fmag b.
Proof.
  intros A B L. apply low63_lt in L; auto. destruct (parts a A) as (_&_&Ea&Fa). destruct (parts b B) as (_&_&Eb&Fb). destruct L as [L|(L&F)].
  - assert (Mb := fmag_bounds b B ltac:(lia)).
    assert (Hm : fmag a < 2^(exponent b + 51)); [|lia].
    destruct (Z.eq_dec (exponent a) 0) as [Z0|N0].
    + assert (Q := fmag_small a A Z0). assert (2^52 <= 2^(exponent b + 51)) by (apply Z.pow_le_mono_r; lia). lia.
    + assert (Q := fmag_bounds a A N0). assert (2^(exponent a + 52) <= 2^(exponent b + 51)) by (apply Z.pow_le_mono_r; lia). lia.
  - unfold fmag. rewrite <- L. destruct (Z.eqb_spec (exponent a) 0); [auto|]. assert (0 < 2^(exponent a - 1)) by (apply Z.pow_pos_nonneg; lia). nia.
Qed.
Lemma fmag_inj a b : word a -> word b -> fmag a = fmag b -> low63 a = low63 b.
Proof. intros A B E. destruct (Z.lt_trichotomy (low63 a) (low63 b)) as [L|[L|L]]; auto; apply fmag_mono in L; auto; lia. Qed.
Lemma low63_0 a : word a -> (fmag a = 0 <-> low63 a = 0).
Proof.
  intros A. assert (Q : fmag 0 = 0) by reflexivity. assert (W : word 0) by (split; reflexivity). assert (L0 : low63 0 = 0) by reflexivity.
  split; intros H; [rewrite <- L0; apply fmag_inj; auto; lia|]. destruct (parts a A) as (_&_&Ea&Fa). unfold low63 in H. change (2^52) with 4503599627370496 in *. unfold fmag. assert (exponent a = 0) by lia. assert (fraction a = 0) by lia. rewrite H0, H1. reflexivity.
Qed.
Lemma word_split a b : word a -> word b -> sign a = sign b -> low63 a = low63 b -> a = b.
Proof. intros A B S0 L. destruct (parts a A) as (Pa&_). destruct (parts b B) as (Pb&_). unfold low63 in L. rewrite Pa, Pb, S0. lia. Qed.
(** equal numbers have the same pattern, except for the two zeros *)
Lemma fval_inj a b : word a -> word b -> fval a = fval b -> a = b \/ fmag a = 0 /\ fmag b = 0.
Proof.
  intros A B E. destruct (parts a A) as (_&Sa&_). destruct (parts b B) as (_&Sb&_). assert (Na := fmag_nonneg a). assert (Nb := fmag_nonneg b). unfold fval in E.
  destruct (Z.eqb_spec (sign a) 1), (Z.eqb_spec (sign b) 1).
  - left. apply word_split; auto; [lia|apply fmag_inj; auto; lia].
  - right. lia.
  - right. lia.
  - left. apply word_split; auto; [lia|apply fmag_inj; auto; lia].
Qed.
Lemma nan_low63 a : word a -> is_nan a = (2047 * 2^52 <? low63 a).
Proof.
  intros A. destruct (parts a A) as (_&_&Ea&Fa). unfold is_nan, low63. change (2^52) with 4503599627370496 in *.
  destruct (Z.eqb_spec (exponent a) 2047), (Z.eqb_spec (fraction a) 0); cbn [negb andb]; symmetry; lia.
Qed.
