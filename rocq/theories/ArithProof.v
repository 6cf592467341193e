From Verif Require Import Base BitsModel BitsSpec BitsProof BitsProof2 SqueezeModel SqueezeProof SelectModel SelectProof SelectProof2 ArithModel ArithSpec.
From Coq Require Import List Lia.

Lemma log2_53 a : 0 <= a -> Z.log2 a - 52 <= 0 \/ (2 ^ 53 <= a /\ 2 ^ 52 * 2 ^ (Z.log2 a - 52) <= a < 2 ^ 53 * 2 ^ (Z.log2 a - 52)).
Proof.
  intros A. destruct (Z_le_gt_dec (Z.log2 a - 52) 0) as [|G]; [left; auto|right]. assert (P : 0 < a). { destruct (Z.eq_dec a 0) as [->|]; [cbn in G; lia|lia]. }
  destruct (Z.log2_spec a P) as [L U]. rewrite <- !Z.pow_add_r by lia. replace (52 + (Z.log2 a - 52)) with (Z.log2 a) by lia. replace (53 + (Z.log2 a - 52)) with (Z.succ (Z.log2 a)) by lia.
  split; [|lia]. assert (2 ^ 53 <= 2 ^ Z.log2 a) by (apply Z.pow_le_mono_r; lia). lia.
Qed.
(** the rounding, by absolute value *)
Lemma rnd_cases z : rnd z = z /\ Z.log2 (Z.abs z) - 52 <= 0 \/ exists e q, 0 < e /\ rnd z = Z.sgn z * (q * 2 ^ e) /\ 2 ^ 52 <= q <= 2 ^ 53 /\ 2 ^ 52 * 2 ^ e <= Z.abs z /\ 2 ^ 53 <= Z.abs z /\ Z.abs z < 2 ^ 53 * 2 ^ e /\ 2 * Z.abs (Z.abs z - q * 2 ^ e) <= 2 ^ e.
Proof.
  unfold rnd. destruct (log2_53 (Z.abs z)) as [L|(L0 & L)]; [lia| |].
  - left. destruct (Z.leb_spec (Z.log2 (Z.abs z) - 52) 0); [auto|lia].
  - set (e := Z.log2 (Z.abs z) - 52) in *. set (a := Z.abs z) in *. destruct (Z.leb_spec e 0).
    + left. split; auto; lia.
    + right. assert (P : 0 < 2 ^ e) by (apply Z.pow_pos_nonneg; lia). remember (2 ^ e) as p eqn:Ep.
      pose proof (Z.div_mod a p ltac:(lia)) as D. pose proof (Z.mod_pos_bound a p P) as M. set (q := a / p) in *. set (r := a mod p) in *. clearbody q r.
      change (2 ^ 53) with 9007199254740992 in *. change (2 ^ 52) with 4503599627370496 in *.
      assert (Q : 4503599627370496 <= q <= 9007199254740991) by nia. 
      exists e, (if (p <? 2 * r) || ((p =? 2 * r) && Z.odd q) then q + 1 else q). rewrite <- Ep. split; auto. split; auto.
      destruct ((p <? 2 * r) || ((p =? 2 * r) && Z.odd q)) eqn:C; (split; [lia|]); (split; [nia|]); (split; [lia|]); (split; [nia|]).
      * replace (a - (q + 1) * p) with (r - p) by nia. lia.
      * replace (a - q * p) with r by nia. lia.
Qed.
Lemma rnd_exact z : - 2 ^ 53 <= z <= 2 ^ 53 -> rnd z = z.
Proof.
  intros B. destruct (rnd_cases z) as [[H _]|(e & q & E & R & Q & L & L2 & U & N)]; [exact H|]. rewrite R. assert (Z.abs z = 2 ^ 53) as A by lia.
  assert (P : 2 ^ e = 2 * 2 ^ (e - 1)). { rewrite <- Z.pow_succ_r by lia. f_equal. lia. }
  assert (P1 : 0 < 2 ^ (e - 1)) by (apply Z.pow_pos_nonneg; lia). rewrite A in *. rewrite P in *. set (p := 2 ^ (e - 1)) in *. clearbody p.
  change (2 ^ 53) with 9007199254740992 in *. change (2 ^ 52) with 4503599627370496 in *. assert (p = 1) as -> by lia. assert (q = 4503599627370496) as -> by lia. destruct (Z.sgn_spec z) as [[? ->]|[[? ->]|[? ->]]]; lia.
Qed.
Lemma rnd_err z : 2 ^ 52 * Z.abs (rnd z - z) <= Z.abs z.
Proof.
  destruct (rnd_cases z) as [[-> _]|(e & q & E & R & Q & L & L2 & U & N)]; [rewrite Z.sub_diag; cbn; lia|]. rewrite R.
  assert (Z.abs (Z.sgn z * (q * 2 ^ e) - z) = Z.abs (Z.abs z - q * 2 ^ e)) as ->. { destruct (Z.sgn_spec z) as [[? ->]|[[? ->]|[? ->]]]; lia. }
  set (d := Z.abs (Z.abs z - q * 2 ^ e)) in *. lia.
Qed.
Lemma rnd_double z : is_double (rnd z).
Proof.
  destruct (rnd_cases z) as [[-> L]|(e & q & E & R & Q & _)].
  - exists z, 0. split; [lia|]. split; [|lia]. destruct (Z.eq_dec z 0) as [->|]; [cbn; lia|]. destruct (Z.log2_spec (Z.abs z)) as [_ U]; [lia|]. assert (2 ^ Z.succ (Z.log2 (Z.abs z)) <= 2 ^ 53) by (apply Z.pow_le_mono_r; lia). lia.
  - exists (Z.sgn z * q), e. split; [lia|]. split; [|rewrite R; ring]. destruct (Z.sgn_spec z) as [[? ->]|[[? ->]|[? ->]]]; lia.
Qed.
Lemma small_double z : - 2 ^ 53 <= z <= 2 ^ 53 -> is_double z.
Proof. intros H. exists z, 0. split; [lia|]. split; [auto|lia]. Qed.
(** no double is nearer *)
Lemma rnd_nearest z : nearest z (rnd z).
Proof.
  split; [apply rnd_double|]. intros d (m & f & F & M & ->). destruct (rnd_cases z) as [[-> L]|(e & q & E & R & Q & L & L2 & U & N)]; [lia|]. rewrite R.
  assert (P : 0 < 2 ^ e) by (apply Z.pow_pos_nonneg; lia).
  assert (A : Z.abs (z - Z.sgn z * (q * 2 ^ e)) = Z.abs (Z.abs z - q * 2 ^ e)). { destruct (Z.sgn_spec z) as [[? ->]|[[? ->]|[? ->]]]; lia. }
  rewrite A. assert (B : exists m', - 2 ^ 53 <= m' <= 2 ^ 53 /\ Z.abs (Z.abs z - m' * 2 ^ f) <= Z.abs (z - m * 2 ^ f)).
  { exists (Z.sgn z * m). split; destruct (Z.sgn_spec z) as [[? ->]|[[? ->]|[? ->]]]; lia. }
  destruct B as (m' & M' & B). enough (2 * Z.abs (Z.abs z - q * 2 ^ e) <= 2 * Z.abs (Z.abs z - m' * 2 ^ f)) by lia.
  clear A B R. set (a := Z.abs z) in *. clearbody a. clear M m. destruct (Z_le_gt_dec e f) as [G|G].
  - (* d is a multiple of 2^e *)
    assert (2 ^ f = 2 ^ (f - e) * 2 ^ e) as ->. { rewrite <- Z.pow_add_r by lia. f_equal. lia. }
    rewrite Z.mul_assoc. set (k := m' * 2 ^ (f - e)). clearbody k. set (p := 2 ^ e) in *. clearbody p. destruct (Z.eq_dec k q) as [->|Ne]; [lia|].
    assert (p <= Z.abs (k * p - q * p)); [|lia]. rewrite <- Z.mul_sub_distr_r, Z.abs_mul, (Z.abs_eq p) by lia. assert (1 <= Z.abs (k - q)) by lia. nia.
  - (* d is at most 2^52 * 2^e <= a *)
    assert (Pf : 0 < 2 ^ f) by (apply Z.pow_pos_nonneg; lia).
    assert (T : 2 ^ e = 2 * (2 ^ (e - 1 - f) * 2 ^ f)). { rewrite <- Z.pow_add_r by lia. rewrite <- Z.pow_succ_r by lia. f_equal. lia. }
    assert (P1 : 0 < 2 ^ (e - 1 - f)) by (apply Z.pow_pos_nonneg; lia).
    change (2 ^ 53) with 9007199254740992 in *. change (2 ^ 52) with 4503599627370496 in *.
    assert (D : m' * 2 ^ f <= 4503599627370496 * 2 ^ e). { rewrite T. set (p := 2 ^ f) in *. set (s := 2 ^ (e - 1 - f)) in *. clearbody p s. assert (m' * p <= 9007199254740992 * p) by nia. assert (p <= s * p) by nia. lia. }
    (* the multiple 2^52*2^e of 2^e is at least as near as d *)
    set (p := 2 ^ e) in *. clearbody p. set (d := m' * 2 ^ f) in *. clearbody d.
    assert (2 * Z.abs (a - q * p) <= 2 * Z.abs (a - 4503599627370496 * p)); [|lia].
    destruct (Z.eq_dec 4503599627370496 q) as [<-|Ne]; [lia|]. assert (p <= Z.abs (4503599627370496 * p - q * p)); [|lia]. rewrite <- Z.mul_sub_distr_r, Z.abs_mul, (Z.abs_eq p) by lia. nia.
Qed.
