(** Reshape: the repetition of bits and bytes. *)
From Coq Require Import ZArith List Bool Lia Znumtheory.
Import ListNotations.
From Verif Require Import Base ListLib SqueezeModel ReshapeModel ReshapeSpec.
Open Scope Z_scope.

Lemma numat_ext n f g p q : (forall i, 0 <= i < Z.of_nat n -> f (p + i) = g (q + i)) -> numat n f p = numat n g q.
Proof.
  revert p q. induction n; intros p q H; [reflexivity|]. cbn [numat].
  replace (f p) with (g q) by (specialize (H 0); rewrite !Z.add_0_r in H; symmetry; apply H; lia).
  rewrite (IHn (p+1) (q+1)); [reflexivity|]. intros i Hi. replace (p+1+i) with (p+(1+i)) by lia. replace (q+1+i) with (q+(1+i)) by lia. apply H. lia.
Qed.
Lemma numat_tb n f p k : Z.testbit (numat n f p) k = if (0 <=? k) && (k <? Z.of_nat n) then f (p + k) else false.
Proof.
  revert p k. induction n; intros p k; cbn [numat].
  - rewrite Z.bits_0. destruct (Z.leb_spec 0 k), (Z.ltb_spec k (Z.of_nat 0)); try reflexivity; lia.
  - destruct (Z.leb_spec 0 k) as [Hk|Hk].
    2: { cbn [andb]. destruct k; try lia. reflexivity. }
    cbn [andb]. destruct (Z.eq_dec k 0) as [->|Nk].
    + rewrite Z.add_comm. rewrite Z.testbit_0_r. rewrite Z.add_0_r. destruct (Z.ltb_spec 0 (Z.of_nat (S n))); [reflexivity|lia].
    + rewrite Z.add_comm. replace k with (Z.succ (k-1)) by lia. rewrite Z.testbit_succ_r by lia.
      rewrite IHn. replace (p + 1 + (k-1)) with (p + Z.succ (k-1)) by lia.
      destruct (Z.leb_spec 0 (k-1)), (Z.ltb_spec (k-1) (Z.of_nat n)), (Z.ltb_spec (Z.succ (k-1)) (Z.of_nat (S n))); cbn [andb]; try lia; reflexivity.
Qed.
Lemma numat_range n f p : 0 <= numat n f p < 2 ^ Z.of_nat n.
Proof.
  revert p. induction n; intros p; cbn [numat]; [cbn; lia|].
  specialize (IHn (p+1)). rewrite Nat2Z.inj_succ, Z.pow_succ_r by lia. destruct (f p); cbn [Z.b2z]; lia.
Qed.
Lemma numat_testbit n z : 0 <= z < 2 ^ Z.of_nat n -> numat n (Z.testbit z) 0 = z.
Proof.
  intros H. apply Z.bits_inj'. intros k Hk. rewrite numat_tb.
  destruct (Z.leb_spec 0 k); [|lia]. cbn [andb Z.add].
  destruct (Z.ltb_spec k (Z.of_nat n)); [reflexivity|].
  symmetry. destruct (Z.eq_dec z 0) as [->|Nz]; [apply Z.bits_0|]. apply Z.bits_above_log2; [lia|].
  apply Z.log2_lt_pow2; [lia|]. eapply Z.lt_le_trans; [apply H|]. apply Z.pow_le_mono_r; lia.
Qed.

Lemma mod_shift k d P : 0 < P -> (P | d) -> (k - d) mod P = k mod P.
Proof. intros HP [q ->]. replace (k - q * P) with (k + (-q) * P) by lia. apply Z.mod_add. lia. Qed.

Lemma ones64_tb k : 0 <= k -> Z.testbit (Z.ones 64) k = (k <? 64).
Proof. intros. rewrite Z.testbit_ones_nonneg by lia. reflexivity. Qed.
Lemma to_u64_tb x k : 0 <= k < 64 -> Z.testbit (to_u 64 x) k = Z.testbit x k.
Proof. intros. unfold to_u. rewrite Z.mod_pow2_bits_low by lia. reflexivity. Qed.
Lemma low_mask_ok b : 0 < b <= 64 -> exists k, low_mask b = Ok k /\ forall i, 0 <= i < 64 -> Z.testbit k i = (i <? b).
Proof.
  intros H. unfold low_mask, shr64. destruct (Z.leb_spec 0 (64-b)); [|lia]. destruct (Z.ltb_spec (64-b) 64); [|lia]. cbn [andb].
  eexists. split; [reflexivity|]. intros i Hi. rewrite Z.shiftr_spec by lia. rewrite ones64_tb by lia.
  destruct (Z.ltb_spec (i+(64-b)) 64), (Z.ltb_spec i b); try lia; reflexivity.
Qed.
Lemma rdword_ok m : 64 <= msz m -> rdword m 0 = Ok (numat 64 (at_ m) 0).
Proof. intros H. unfold rdword. change (64 * 0 + 64) with 64. change (64 * 0) with 0. change (0 <=? 0) with true. cbn [andb]. destruct (Z.leb_spec 64 (msz m)); [reflexivity|lia]. Qed.
Lemma wrword_ok m i v : 0 <= i -> 64 * i + 64 <= msz m -> wrword m i v = Ok (Mem (msz m) (fun k => if (64 * i <=? k) && (k <? 64 * i + 64) then Z.testbit v (k - 64 * i) else at_ m k)).
Proof. intros H1 H2. unfold wrword. destruct (Z.leb_spec 0 i); [|lia]. destruct (Z.leb_spec (64*i+64) (msz m)); [|lia]. reflexivity. Qed.
Lemma fw_loop_ok v n : forall m i, 0 <= i -> 64 * (i + Z.of_nat n) <= msz m ->
  exists m', fw_loop n m i v = Ok m' /\ msz m' = msz m /\
    forall k, 0 <= k -> at_ m' k = if (64 * i <=? k) && (k <? 64 * (i + Z.of_nat n)) then Z.testbit v (k mod 64) else at_ m k.
Proof.
  induction n; intros m i Hi Hs; cbn [fw_loop].
  - exists m. split; [reflexivity|]. split; [reflexivity|]. intros k Hk. destruct (Z.leb_spec (64*i) k), (Z.ltb_spec k (64*(i+Z.of_nat 0))); try lia; reflexivity.
  - rewrite wrword_ok by lia. cbn [bind].
    destruct (IHn (Mem (msz m) (fun k => if (64 * i <=? k) && (k <? 64 * i + 64) then Z.testbit v (k - 64 * i) else at_ m k)) (i+1)) as [m' [E [S1 H]]]; [lia|cbn [msz]; lia|].
    exists m'. split; [exact E|]. split; [exact S1|]. intros k Hk. rewrite H by lia. cbn [at_].
    destruct (Z.leb_spec (64*(i+1)) k), (Z.ltb_spec k (64*(i+1+Z.of_nat n))), (Z.leb_spec (64*i) k), (Z.ltb_spec k (64*i+64)), (Z.ltb_spec k (64*(i+Z.of_nat (S n)))); cbn [andb]; try lia; try reflexivity.
    f_equal. apply Z.mod_unique with i; lia.
Qed.
Lemma fill_words_ok m v bytes : 0 <= bytes -> 8 * bytes <= msz m ->
  exists m', fill_words m v bytes = Ok m' /\ msz m' = msz m /\ forall k, 0 <= k < 8 * bytes -> at_ m' k = Z.testbit v (k mod 64).
Proof.
  intros Hb Hs. unfold fill_words. pose proof (Z.div_mod bytes 8 ltac:(lia)) as E0. pose proof (Z.mod_pos_bound bytes 8 ltac:(lia)) as B0.
  assert (D0 : 0 <= bytes / 8) by (apply Z.div_pos; lia).
  destruct (fw_loop_ok v (Z.to_nat (bytes / 8)) m 0) as [m1 [E1 [S1 H1]]]; [lia|lia|]. rewrite E1. cbn [bind].
  destruct (Z.eqb_spec (bytes mod 8) 0) as [Z0|N0]; cbn [negb].
  - exists m1. split; [reflexivity|]. split; [exact S1|]. intros k Hk. rewrite H1 by lia.
    destruct (Z.leb_spec (64*0) k), (Z.ltb_spec k (64*(0+Z.of_nat (Z.to_nat (bytes/8))))); cbn [andb]; try lia; reflexivity.
  - unfold gcpy. cbn [msz]. destruct (Z.leb_spec 0 (64*(bytes/8))); [|lia]. destruct (Z.leb_spec 0 (8*(bytes mod 8))); [|lia].
    destruct (Z.leb_spec (64*(bytes/8) + 8*(bytes mod 8)) (msz m1)); [|lia]. destruct (Z.leb_spec (0+8*(bytes mod 8)) 64); [|lia]. change (0 <=? 0) with true. cbn [andb].
    eexists. split; [reflexivity|]. split; [exact S1|]. intros k Hk. cbn [at_].
    destruct (Z.leb_spec (64*(bytes/8)) k), (Z.ltb_spec k (64*(bytes/8)+8*(bytes mod 8))); cbn [andb]; try lia.
    + f_equal. rewrite Z.add_0_l. apply Z.mod_unique with (bytes/8); lia.
    + rewrite H1 by lia. destruct (Z.leb_spec (64*0) k), (Z.ltb_spec k (64*(0+Z.of_nat (Z.to_nat (bytes/8))))); cbn [andb]; try lia; reflexivity.
Qed.
Lemma pow2_small bi : 1 <= bi <= 8 -> Z.land bi (bi - 1) = 0 -> bi = 1 \/ bi = 2 \/ bi = 4 \/ bi = 8.
Proof. intros H E. assert (C : bi = 1 \/ bi = 2 \/ bi = 3 \/ bi = 4 \/ bi = 5 \/ bi = 6 \/ bi = 7 \/ bi = 8) by lia. intuition (subst; try discriminate; auto). Qed.
Lemma dbl_stop fuel m bi l : l / 2 < bi -> dbl_loop (S fuel) m bi l = Ok (m, bi).
Proof. intros H. cbn [dbl_loop]. destruct (Z.leb_spec bi (l/2)); [lia|reflexivity]. Qed.
Lemma end_noop m bi bf : bf <= bi -> 0 <= bf -> (bi <=? 8) && (Z.land bi (bi - 1) =? 0) = false -> 1 <= bi -> cycle_end m bi bf = Ok m.
Proof.
  intros Hb Hf Hc H1. unfold cycle_end. rewrite Hc. set (l := if bf <? 2^15 then bf else 2^15).
  assert (Hl : l <= bf) by (unfold l; destruct (Z.ltb_spec bf (2^15)); lia).
  assert (L0 : 0 <= l) by (unfold l; destruct (Z.ltb_spec bf (2^15)); lia).
  rewrite (dbl_stop 39) by (apply Z.div_lt_upper_bound; lia).
  cbn [bind blk_loop]. destruct (Z.leb_spec (bi+bi) bf); [lia|]. cbn [bind]. destruct (Z.ltb_spec bi bf); [lia|]. reflexivity.
Qed.
Lemma end_word_same m : 64 <= msz m -> exists m', cycle_end m 8 8 = Ok m' /\ msz m' = msz m /\ forall k, 0 <= k < 64 -> at_ m' k = at_ m k.
Proof.
  intros H. unfold cycle_end. change (8 <=? 8) with true. change (Z.land 8 (8 - 1) =? 0) with true. cbn [andb].
  change (8 * 8) with 64. rewrite rdword_ok by exact H. cbn [bind]. destruct (low_mask_ok 64 ltac:(lia)) as [k [Ek Hk]]. rewrite Ek. cbn [bind].
  change (rep_loop 8 (Z.land (numat 64 (at_ m) 0) k) 64) with (Ok (Z.land (numat 64 (at_ m) 0) k)). cbn [bind].
  destruct (fill_words_ok m (Z.land (numat 64 (at_ m) 0) k) 8) as [m' [E [S1 Q]]]; [lia|lia|]. exists m'. split; [exact E|]. split; [exact S1|].
  intros i Hi. rewrite Q by lia. rewrite Z.mod_small by lia. rewrite Z.land_spec, Hk, numat_tb by lia. change (Z.of_nat 64) with 64.
  destruct (Z.leb_spec 0 i); [|lia]. destruct (Z.ltb_spec i 64); [|lia]. rewrite Z.add_0_l. apply andb_true_r.
Qed.

Section Rep.
Variable f : Z -> bool.
Variable P : Z.
Hypothesis HP : 0 < P.
(** the first n bits repeat f with period P *)
Definition per (m : gmem bool) (n : Z) : Prop := forall k, 0 <= k < n -> at_ m k = f (k mod P).
Lemma per_le m a b : per m b -> a <= b -> per m a.
Proof. intros H L k Hk. apply H. lia. Qed.

Lemma gcpy_per m d n : (P | d) -> per m d -> 0 <= d -> 0 <= n -> n <= d -> d + n <= msz m ->
  exists m', gcpy m d m 0 n = Ok m' /\ msz m' = msz m /\ per m' (d + n).
Proof.
  intros Hd Hp H0 Hn Hnd Hs. unfold gcpy.
  destruct (Z.leb_spec 0 d); [|lia]. destruct (Z.leb_spec 0 n); [|lia]. destruct (Z.leb_spec (d+n) (msz m)); [|lia].
  destruct (Z.leb_spec (0+n) (msz m)); [|lia]. change (0 <=? 0) with true. cbn [andb].
  eexists. split; [reflexivity|]. split; [reflexivity|]. intros k Hk. cbn [at_].
  destruct (Z.leb_spec d k), (Z.ltb_spec k (d+n)); cbn [andb]; try lia.
  - rewrite Z.add_0_l, Hp by lia. f_equal. apply mod_shift; auto.
  - apply Hp. lia.
Qed.
(** copying the start to place e, when everything before e is there already and n <= what is there *)
Lemma gself_per m e n : (P | e) -> per m e -> 0 <= e -> 0 <= n -> n <= e -> e + n <= msz m ->
  exists m', gself m e 0 n = Ok m' /\ msz m' = msz m /\ per m' (e + n).
Proof.
  intros Hd Hp H0 Hn Hne Hs. unfold gself. destruct (Z.leb_spec (0+n) e); [|lia]. cbn [orb]. apply gcpy_per; auto.
Qed.
Lemma bcpy_per m d n : (P | d) -> per m d -> 64 <= d -> 0 <= n -> n <= d -> d + n <= msz m ->
  exists m', bcpy m d n = Ok m' /\ msz m' = msz m /\ per m' (d + n).
Proof.
  intros Hd Hp H0 Hn Hne Hs. unfold bcpy. destruct (Z.leb_spec n d); [|lia]. destruct (Z.leb_spec (n+64) (msz m)); [|lia]. cbn [andb]. apply gcpy_per; auto; lia.
Qed.

(** words *)
Definition wper (v n : Z) : Prop := forall k, 0 <= k < 64 -> Z.testbit v k = if k <? n then f (k mod P) else false.
Lemma shl_step v b : (P | b) -> 0 < b < 64 -> wper v b -> exists s, shl64 v b = Ok s /\ wper (Z.lor v s) (2 * b).
Proof.
  intros Hd Hb W. unfold shl64. destruct (Z.leb_spec 0 b); [|lia]. destruct (Z.ltb_spec b 64); [|lia]. cbn [andb].
  eexists. split; [reflexivity|]. intros k Hk. rewrite Z.lor_spec, to_u64_tb by lia. rewrite Z.shiftl_spec by lia.
  rewrite W by lia. destruct (Z.ltb_spec k b).
  - replace (Z.testbit v (k-b)) with false by (symmetry; apply Z.testbit_neg_r; lia). rewrite orb_false_r.
    destruct (Z.ltb_spec k (2*b)); [reflexivity|lia].
  - cbn [orb]. rewrite W by lia. destruct (Z.ltb_spec (k-b) b), (Z.ltb_spec k (2*b)); try lia; try reflexivity. rewrite mod_shift by auto. reflexivity.
Qed.
Lemma mask_per m b k : per m b -> 0 < b <= 64 -> (forall i, 0 <= i < 64 -> Z.testbit k i = (i <? b)) -> wper (Z.land (numat 64 (at_ m) 0) k) b.
Proof.
  intros Hp Hb Hk i Hi. rewrite Z.land_spec, numat_tb, Hk by lia. change (Z.of_nat 64) with 64.
  destruct (Z.leb_spec 0 i); [|lia]. destruct (Z.ltb_spec i 64); [|lia]. cbn [andb]. rewrite Z.add_0_l.
  destruct (Z.ltb_spec i b); [|apply andb_false_r]. rewrite andb_true_r. apply Hp. lia.
Qed.
Lemma rep_loop_ok fuel : forall v b, (P | b) -> 0 < b -> wper v b -> 64 <= b * 2 ^ (Z.of_nat fuel - 1) -> (fuel > 0)%nat ->
  exists v', rep_loop fuel v b = Ok v' /\ wper v' 64.
Proof.
  induction fuel; intros v b Hd Hb W F G; [lia|]. cbn [rep_loop]. destruct (Z.ltb_spec b 64).
  - destruct (shl_step v b Hd ltac:(lia) W) as [s [E W2]]. rewrite E. cbn [bind].
    destruct fuel as [|fuel].
    { exfalso. replace (Z.of_nat 1 - 1) with 0 in F by lia. rewrite Z.pow_0_r in F. lia. }
    apply IHfuel; [apply Z.divide_mul_r; exact Hd|lia|exact W2| |lia].
    replace (Z.of_nat (S (S fuel)) - 1) with (Z.succ (Z.of_nat (S fuel) - 1)) in F by lia. rewrite Z.pow_succ_r in F by lia. lia.
  - exists v. split; [reflexivity|]. intros k Hk. rewrite W by lia. destruct (Z.ltb_spec k b), (Z.ltb_spec k 64); try lia; reflexivity.
Qed.

(** fill_words writes the word everywhere *)

(** the common end *)
Lemma end_word m bi bf : 1 <= bi <= 8 -> Z.land bi (bi - 1) = 0 -> (P | 8 * bi) -> per m (8 * bi) -> 0 <= bf -> 8 * bf <= msz m -> 64 <= msz m ->
  exists m', cycle_end m bi bf = Ok m' /\ msz m' = msz m /\ per m' (8 * bf).
Proof.
  intros Hb Hl Hd Hp Hf Hs H64. unfold cycle_end. rewrite Hl. destruct (Z.leb_spec bi 8); [|lia]. cbn [andb Z.eqb].
  rewrite rdword_ok by exact H64. cbn [bind].
  destruct (low_mask_ok (bi*8) ltac:(lia)) as [k [Ek Hk]]. rewrite Ek. cbn [bind].
  assert (P2 := pow2_small bi Hb Hl).
  destruct (rep_loop_ok 8 (Z.land (numat 64 (at_ m) 0) k) (bi*8)) as [v [Ev Wv]].
  { rewrite Z.mul_comm. exact Hd. } { lia. } { apply mask_per; [|lia|exact Hk]. rewrite Z.mul_comm. exact Hp. }
  { change (Z.of_nat 8 - 1) with 7. lia. } { lia. }
  rewrite Ev. cbn [bind]. destruct (fill_words_ok m v bf Hf Hs) as [m' [E [S1 HQ]]]. exists m'. split; [exact E|]. split; [exact S1|].
  intros i Hi. rewrite HQ by lia. rewrite Wv by (apply Z.mod_pos_bound; lia). destruct (Z.ltb_spec (i mod 64) 64); [|pose proof (Z.mod_pos_bound i 64); lia].
  f_equal. assert (D64 : (P | 64)) by (destruct P2 as [->|[->|[->| ->]]]; [eapply Z.divide_trans; [exact Hd|exists 8; reflexivity]|eapply Z.divide_trans; [exact Hd|exists 4; reflexivity]|eapply Z.divide_trans; [exact Hd|exists 2; reflexivity]|eapply Z.divide_trans; [exact Hd|exists 1; reflexivity]]).
  rewrite <- (mod_shift i (64 * (i / 64)) P HP) by (apply Z.divide_mul_l; exact D64). f_equal. rewrite Z.mod_eq by lia. reflexivity.
Qed.
Lemma dbl_loop_ok l fuel : forall m bi, 0 < bi -> (P | 8 * bi) -> per m (8 * bi) -> 8 * l <= msz m -> bi <= l -> l / 2 < bi * 2 ^ (Z.of_nat fuel - 1) -> (fuel > 0)%nat ->
  exists m' bi', dbl_loop fuel m bi l = Ok (m', bi') /\ msz m' = msz m /\ 0 < bi' <= l /\ (P | 8 * bi') /\ per m' (8 * bi').
Proof.
  induction fuel; intros m bi Hb Hd Hp Hs Hl F G; [lia|]. cbn [dbl_loop]. destruct (Z.leb_spec bi (l/2)) as [L|L].
  - assert (2 * bi <= l) by (pose proof (Z.div_mod l 2 ltac:(lia)); pose proof (Z.mod_pos_bound l 2 ltac:(lia)); lia).
    destruct (gself_per m (8*bi) (8*bi)) as [m1 [E1 [S1 P1]]]; auto; try lia. rewrite E1. cbn [bind].
    destruct fuel as [|fuel].
    { exfalso. replace (Z.of_nat 1 - 1) with 0 in F by lia. rewrite Z.pow_0_r in F. lia. }
    destruct (IHfuel m1 (bi+bi)) as [m' [bi' [E [S2 [B [D Q]]]]]]; try lia.
    { replace (8 * (bi+bi)) with (8*bi+8*bi) by lia. apply Z.divide_add_r; exact Hd. }
    { replace (8 * (bi+bi)) with (8*bi+8*bi) by lia. exact P1. }
    { replace (Z.of_nat (S (S fuel)) - 1) with (Z.succ (Z.of_nat (S fuel) - 1)) in F by lia. rewrite Z.pow_succ_r in F by lia. lia. }
    exists m', bi'. split; [exact E|]. split; [lia|]. split; [exact B|]. split; [exact D|exact Q].
  - exists m, bi. split; [reflexivity|]. split; [reflexivity|]. split; [lia|]. split; [exact Hd|exact Hp].
Qed.
Lemma blk_loop_ok bi bf fuel : forall m e, 0 < bi <= e -> (P | 8 * bi) -> (P | 8 * e) -> per m (8 * e) -> 8 * bf <= msz m -> e <= bf -> bf - e < Z.of_nat fuel ->
  exists m' e', blk_loop fuel m e bi bf = Ok (m', e') /\ msz m' = msz m /\ bi <= e' <= bf /\ bf < e' + bi /\ (P | 8 * e') /\ per m' (8 * e').
Proof.
  induction fuel; intros m e Hb Hd He Hp Hs Hl F; [lia|]. cbn [blk_loop]. destruct (Z.leb_spec (e+bi) bf) as [L|L].
  - destruct (gself_per m (8*e) (8*bi)) as [m1 [E1 [S1 P1]]]; auto; try lia. rewrite E1. cbn [bind].
    destruct (IHfuel m1 (e+bi)) as [m' [e' [E [S2 [B [B2 [D Q]]]]]]]; try lia.
    { exact Hd. }
    { replace (8 * (e+bi)) with (8*e+8*bi) by lia. apply Z.divide_add_r; assumption. }
    { replace (8 * (e+bi)) with (8*e+8*bi) by lia. exact P1. }
    exists m', e'. split; [exact E|]. split; [lia|]. split; [lia|]. split; [lia|]. split; [exact D|exact Q].
  - exists m, e. split; [reflexivity|]. split; [reflexivity|]. split; [lia|]. split; [lia|]. split; [exact He|exact Hp].
Qed.
Lemma end_dbl m bi bf : 1 <= bi <= bf -> (bi <=? 8) && (Z.land bi (bi - 1) =? 0) = false -> (P | 8 * bi) -> per m (8 * bi) -> bf < 2 ^ 40 -> 8 * bf <= msz m ->
  exists m', cycle_end m bi bf = Ok m' /\ msz m' = msz m /\ per m' (8 * bf).
Proof.
  intros Hb Hc Hd Hp Hf Hs. unfold cycle_end. rewrite Hc. set (l := if bf <? 2^15 then bf else 2^15).
  assert (Hl : l <= bf /\ l <= 2^15 /\ (bi <= l \/ l = 2^15)) by (unfold l; destruct (Z.ltb_spec bf (2^15)); lia). destruct Hl as [L1 [L2 L3]].
  assert (D : exists m1 bi1, dbl_loop 40 m bi l = Ok (m1, bi1) /\ msz m1 = msz m /\ 0 < bi1 <= bf /\ (P | 8*bi1) /\ per m1 (8*bi1)).
  { destruct (Z.le_gt_cases bi l) as [L|L].
    - destruct (dbl_loop_ok l 40 m bi) as [m1 [bi1 [E [S1 [B [D Q]]]]]]; auto; try lia.
      exists m1, bi1. split; [exact E|]. split; [exact S1|]. split; [lia|]. split; assumption.
    - exists m, bi. split. { apply (dbl_stop 39). apply Z.div_lt_upper_bound; lia. }
      split; [reflexivity|]. split; [lia|]. split; assumption. }
  destruct D as [m1 [bi1 [E1 [S1 [B1 [D1 P1]]]]]]. rewrite E1. cbn [bind].
  destruct (blk_loop_ok bi1 bf (S (Z.to_nat bf)) m1 bi1) as [m2 [e [E2 [S2 [B2 [B3 [D2 P2]]]]]]]; auto; try lia.
  rewrite E2. cbn [bind]. destruct (Z.ltb_spec e bf) as [L|L].
  - destruct (gself_per m2 (8*e) (8*(bf-e))) as [m3 [E3 [S3 P3]]]; auto; try lia. rewrite E3. exists m3. split; [reflexivity|]. split; [lia|].
    replace (8*bf) with (8*e+8*(bf-e)) by lia. exact P3.
  - exists m2. split; [reflexivity|]. split; [lia|]. eapply per_le; [exact P2|lia].
Qed.
(** nothing left to do *)
End Rep.
