(** Reshape: each kind of array. *)
From Coq Require Import ZArith List Bool Lia Znumtheory.
Import ListNotations.
From Verif Require Import Base ListLib SqueezeModel SqueezeProof ReshapeModel ReshapeSpec ReshapeProof.
Open Scope Z_scope.

Section Rep.
Variable f : Z -> bool.
Variable P : Z.
Hypothesis HP : 0 < P.
Notation per := (per f P).
Notation wper := (wper f P).

Lemma cycle_end_ok m bi bf : 1 <= bi <= bf -> (P | 8 * bi) -> per m (8 * bi) -> bf < 2 ^ 40 -> 8 * bf <= msz m -> 64 <= msz m ->
  exists m', cycle_end m bi bf = Ok m' /\ msz m' = msz m /\ per m' (8 * bf).
Proof.
  intros Hb Hd Hp Hf Hs H64. destruct ((bi <=? 8) && (Z.land bi (bi - 1) =? 0)) eqn:C.
  - apply andb_true_iff in C as [C1 C2]. apply Z.leb_le in C1. apply Z.eqb_eq in C2. apply end_word; auto; lia.
  - apply end_dbl; auto.
Qed.

(** the bits case *)
Lemma small_loop_ok fuel : forall v b, (P | b) -> 0 < b < 64 -> wper v b -> (8 | b * 2 ^ Z.of_nat fuel) -> (fuel > 0)%nat ->
  exists v' b', small_loop fuel v b = Ok (v', 2 * b') /\ wper v' (2 * b') /\ (P | b') /\ 0 < b' < 64 /\ (64 <= 2 * b' \/ (2 * b') mod 8 = 0).
Proof.
  induction fuel; intros v b Hd Hb W F G; [lia|]. cbn [small_loop].
  destruct (shl_step f P HP v b Hd ltac:(lia) W) as [s [E W2]]. rewrite E. cbn [bind].
  destruct (Z.eqb_spec ((2*b) mod 8) 0) as [Z0|N0]; cbn [negb andb].
  { exists (Z.lor v s), b. split; [reflexivity|]. split; [exact W2|]. split; [exact Hd|]. split; [lia|]. right. exact Z0. }
  destruct (Z.ltb_spec (2*b) 64) as [L|L].
  2: { exists (Z.lor v s), b. split; [reflexivity|]. split; [exact W2|]. split; [exact Hd|]. split; [lia|]. left. lia. }
  rewrite Nat2Z.inj_succ, Z.pow_succ_r in F by lia. replace (b * (2 * 2 ^ Z.of_nat fuel)) with (2 * b * 2 ^ Z.of_nat fuel) in F by lia.
  apply IHfuel; [apply Z.divide_mul_r; exact Hd|lia|exact W2|exact F|].
  destruct fuel; [|lia]. exfalso. change (2 ^ Z.of_nat 0) with 1 in F. rewrite Z.mul_1_r in F. apply N0. apply Z.mod_divide; [lia|exact F].
Qed.

Lemma bit_double_ok nia nw fuel : forall m b, (P | b) -> 0 < b -> per m (Z.min b (64 * nw)) -> msz m = 64 * nw -> 0 < nia -> nia <= 64 * nw -> 64 * nw < 2 ^ 32 -> (b mod 8 <> 0 -> 64 <= b) -> (8 | b * 2 ^ (Z.of_nat fuel - 1)) -> (fuel > 0)%nat ->
  exists m' b', bit_double fuel m nia nw b = Ok (m', b') /\ msz m' = 64 * nw /\ b' mod 8 = 0 /\
    ((b' = 64 * nw /\ per m' nia) \/ ((P | b') /\ 0 < b' /\ per m' (Z.min b' (64 * nw)))).
Proof.
  induction fuel; intros m b Hd Hb Hp Hs Hn Hw Hw2 H64 F G; [lia|]. cbn [bit_double].
  destruct (Z.eqb_spec (b mod 8) 0) as [Z0|N0].
  { exists m, b. split; [reflexivity|]. split; [exact Hs|]. split; [exact Z0|]. right. auto. }
  specialize (H64 N0). destruct (Z.ltb_spec (nw*32) b) as [L|L].
  - assert (U : to_u 32 (64*nw) = 64*nw) by (apply to_u_id; lia). rewrite U.
    assert (M8 : (64*nw) mod 8 = 0) by (replace (64*nw) with (8*nw*8) by lia; apply Z.mod_mul; lia).
    destruct (Z.ltb_spec b nia) as [L2|L2].
    + destruct (bcpy_per f P HP m b (nia-b)) as [m' [E [S1 Q]]]; auto; try lia. { eapply per_le; [exact Hp|lia]. }
      rewrite E. cbn [bind]. exists m', (64*nw). split; [reflexivity|]. split; [lia|]. split; [exact M8|]. left. split; [reflexivity|]. replace nia with (b+(nia-b)) by lia. exact Q.
    + cbn [bind]. exists m, (64*nw). split; [reflexivity|]. split; [lia|]. split; [exact M8|]. left. split; [reflexivity|]. eapply per_le; [exact Hp|lia].
  - destruct (bcpy_per f P HP m b b) as [m' [E [S1 Q]]]; auto; try lia. { eapply per_le; [exact Hp|lia]. }
    rewrite E. cbn [bind]. destruct fuel as [|fuel].
    { exfalso. change (Z.of_nat 1 - 1) with 0 in F. rewrite Z.pow_0_r, Z.mul_1_r in F. apply N0. apply Z.mod_divide; [lia|exact F]. }
    apply IHfuel; try lia.
    { apply Z.divide_mul_r; exact Hd. } { eapply per_le; [exact Q|lia]. }
    { replace (Z.of_nat (S (S fuel)) - 1) with (Z.succ (Z.of_nat (S fuel) - 1)) in F by lia. rewrite Z.pow_succ_r in F by lia.
      replace (2 * b * 2 ^ (Z.of_nat (S fuel) - 1)) with (b * (2 * 2 ^ (Z.of_nat (S fuel) - 1))) by lia. exact F. }
Qed.
End Rep.

(** bits: every bit of the result *)
Lemma cycle_bits_ok g x xia nia : 1 <= xia < nia -> nia <= 2 ^ 32 - 66 -> 64 * ((xia + 63) / 64) <= msz x ->
  exists m, cycle_bits g x xia nia = Ok m /\ forall k, 0 <= k < nia -> at_ m k = at_ x (k mod xia).
Proof.
  intros Hx Hn Hsx. unfold cycle_bits. destruct (Z.ltb_spec (2^32-66) nia); [lia|].
  set (nw := (nia+63)/64). set (m := Mem (64*nw) g).
  assert (W1 : nia <= 64 * nw) by (unfold nw; pose proof (Z.div_mod (nia+63) 64 ltac:(lia)); pose proof (Z.mod_pos_bound (nia+63) 64 ltac:(lia)); lia).
  assert (W2 : 64 * nw < nia + 64) by (unfold nw; pose proof (Z.div_mod (nia+63) 64 ltac:(lia)); pose proof (Z.mod_pos_bound (nia+63) 64 ltac:(lia)); lia).
  assert (XW : xia <= 64 * ((xia+63)/64)) by (pose proof (Z.div_mod (xia+63) 64 ltac:(lia)); pose proof (Z.mod_pos_bound (xia+63) 64 ltac:(lia)); lia).
  set (f := at_ x). assert (HP : 0 < xia) by lia.
  assert (PX : per f xia x xia) by (intros k Hk; rewrite Z.mod_small by lia; reflexivity).
  (* after the first part *)
  match goal with |- context [bind (if negb (xia mod 8 =? 0) then ?a else ?c) ?K] => set (A := if negb (xia mod 8 =? 0) then a else c) end.
  assert (HA : exists m1 b, A = Ok (m1, b) /\ msz m1 = 64 * nw /\ b mod 8 = 0 /\ ((b = 64 * nw /\ per f xia m1 nia) \/ ((xia | b) /\ 0 < b /\ per f xia m1 (Z.min b (64*nw))))).
  { unfold A. destruct (Z.eqb_spec (xia mod 8) 0) as [Z0|N0]; cbn [negb].
    - unfold gcpy. cbn [msz m]. destruct (Z.leb_spec 0 xia); [|lia]. destruct (Z.leb_spec (0+xia) (64*nw)); [|lia]. destruct (Z.leb_spec (0+xia) (msz x)); [|lia].
      change (0 <=? 0) with true. cbn [andb bind]. eexists _, xia. split; [reflexivity|]. cbn [msz]. split; [reflexivity|]. split; [exact Z0|]. right.
      split; [apply Z.divide_refl|]. split; [lia|]. intros k Hk. cbn [at_]. destruct (Z.leb_spec 0 k), (Z.ltb_spec k (0+xia)); cbn [andb]; try lia.
      rewrite Z.mod_small by lia. unfold f. f_equal. lia.
    - destruct (Z.ltb_spec xia 64) as [L|L].
      + rewrite rdword_ok by (assert (1 <= (xia+63)/64) by (apply Z.div_le_lower_bound; lia); lia). cbn [bind].
        destruct (low_mask_ok xia ltac:(lia)) as [k [Ek Hk]]. rewrite Ek. cbn [bind].
        destruct (small_loop_ok f xia HP 8 (Z.land (numat 64 (at_ x) 0) k) xia) as [v [b [E [W [D [B C]]]]]].
        { apply Z.divide_refl. } { lia. } { apply mask_per; [exact HP|exact PX|lia|exact Hk]. } { change (2 ^ Z.of_nat 8) with 256. exists (xia*32). lia. } { lia. }
        rewrite E. cbn [bind]. rewrite wrword_ok by (cbn [msz m]; lia). cbn [bind].
        set (m0 := Mem (msz m) _).
        assert (M0 : forall i, 0 <= i < 64 -> at_ m0 i = Z.testbit v i).
        { intros i Hi. unfold m0. cbn [at_]. change (64*0) with 0. destruct (Z.leb_spec 0 i), (Z.ltb_spec i (0+64)); cbn [andb]; try lia. rewrite Z.sub_0_r. reflexivity. }
        assert (HM : exists m2, (if (64 <? 2*b) && (64 <? nia) then do s <- shr64 v (64 - 2*b/2); wrword m0 1 s else Ok m0) = Ok m2 /\ msz m2 = 64*nw /\ per f xia m2 (Z.min (2*b) (64*nw))).
        { destruct (Z.ltb_spec 64 (2*b)) as [L1|L1]; cbn [andb].
          2: { exists m0. split; [reflexivity|]. split; [reflexivity|]. intros i Hi. rewrite M0 by lia. rewrite W by lia. destruct (Z.ltb_spec i (2*b)); [reflexivity|lia]. }
          destruct (Z.ltb_spec 64 nia) as [L2|L2].
          2: { assert (nw = 1) by lia. exists m0. split; [reflexivity|]. split; [reflexivity|]. intros i Hi. rewrite M0 by lia. rewrite W by lia. destruct (Z.ltb_spec i (2*b)); [reflexivity|lia]. }
          replace (2*b/2) with b by (rewrite Z.mul_comm, Z.div_mul by lia; reflexivity).
          unfold shr64. destruct (Z.leb_spec 0 (64-b)); [|lia]. destruct (Z.ltb_spec (64-b) 64); [|lia]. cbn [andb bind].
          rewrite wrword_ok by (cbn [msz m0 m]; lia). eexists. split; [reflexivity|]. split; [reflexivity|]. intros i Hi. cbn [at_]. change (64*1) with 64.
          destruct (Z.leb_spec 64 i), (Z.ltb_spec i (64+64)); cbn [andb]; try lia.
          - rewrite Z.shiftr_spec by lia. replace (i-64+(64-b)) with (i-b) by lia. rewrite W by lia. destruct (Z.ltb_spec (i-b) (2*b)); [|lia]. rewrite mod_shift by auto. reflexivity.
          - rewrite M0 by lia. rewrite W by lia. destruct (Z.ltb_spec i (2*b)); [reflexivity|lia]. }
        destruct HM as [m2 [E2 [S2 P2]]]. rewrite E2. cbn [bind].
        apply bit_double_ok; auto; try lia.
        { apply Z.divide_mul_r; exact D. }
        { change (Z.of_nat 8 - 1) with 7. exists (2*b*16). lia. }
      + pose proof (Z.div_mod (xia+7) 8 ltac:(lia)) as DM. pose proof (Z.mod_pos_bound (xia+7) 8 ltac:(lia)) as DB.
        assert (X8 : 8 * ((xia+7)/8) <= 64 * ((xia+63)/64)).
        { assert (((xia+7)/8 - 1) / 8 < (xia+63)/64); [|pose proof (Z.div_mod ((xia+7)/8-1) 8 ltac:(lia)); pose proof (Z.mod_pos_bound ((xia+7)/8-1) 8 ltac:(lia)); lia].
          apply Z.div_lt_upper_bound; lia. }
        assert (N8 : 8 * ((xia+7)/8) <= 64 * nw).
        { assert ((xia+63)/64 <= nw) by (unfold nw; apply Z.div_le_mono; lia). lia. }
        unfold gcpy. cbn [msz m]. destruct (Z.leb_spec 0 (8 * ((xia+7)/8))); [|lia]. destruct (Z.leb_spec (0+8 * ((xia+7)/8)) (64*nw)); [|lia]. destruct (Z.leb_spec (0+8 * ((xia+7)/8)) (msz x)); [|lia].
        change (0 <=? 0) with true. cbn [andb bind]. apply bit_double_ok; auto; try lia; cbn [msz].
        { apply Z.divide_refl. }
        { intros k Hk. cbn [at_]. destruct (Z.leb_spec 0 k), (Z.ltb_spec k (0+8 * ((xia+7)/8))); cbn [andb]; try lia. rewrite Z.mod_small by lia. unfold f. f_equal. lia. }
        { change (Z.of_nat 8 - 1) with 7. exists (xia*16). lia. } }
  destruct HA as [m1 [b [EA [S1 [M8 C]]]]]. rewrite EA. cbn [bind].
  assert (NW : 1 <= nw) by lia.
  assert (FIN : forall m', per f xia m' nia -> forall k, 0 <= k < nia -> at_ m' k = at_ x (k mod xia)) by (intros m' Q k Hk; apply Q; lia).
  assert (SAME : forall m2, msz m2 = 64*nw -> per f xia m2 nia -> exists m', cycle_end m2 (8*nw) (8*nw) = Ok m' /\ per f xia m' nia).
  { intros m2 Sm Q. destruct (Z.eq_dec nw 1) as [E1|N1].
    - rewrite E1. change (8*1) with 8. destruct (end_word_same m2 ltac:(lia)) as [m' [E [_ H1]]]. exists m'. split; [exact E|]. intros k Hk. rewrite H1 by lia. apply Q. exact Hk.
    - exists m2. split; [|exact Q]. apply end_noop; [lia|lia|destruct (Z.leb_spec (8*nw) 8); [lia|reflexivity]|lia]. }
  assert (B8 : 8 * (b/8) = b) by (pose proof (Z.div_mod b 8 ltac:(lia)); lia).
  destruct C as [[Eb Q]|[D [Pb Q]]].
  - assert (Eb2 : b / 8 = 8 * nw) by lia. rewrite Eb2. destruct (Z.eqb_spec (8*nw) 1); [lia|]. cbn [bind].
    destruct (SAME m1 S1 Q) as [m' [E H1]]. exists m'. split; [exact E|]. apply FIN. exact H1.
  - destruct (Z.eqb_spec (b/8) 1) as [E1|N1].
    + assert (b = 8) by lia. subst b. unfold gset. destruct (Z.leb_spec 0 (8*nw)); [|lia]. destruct (Z.leb_spec (8*(8*nw)) (msz m1)); [|lia]. cbn [andb bind].
      set (m2 := Mem (msz m1) _). destruct (SAME m2) as [m' [E HQ1]]; [exact S1| |exists m'; split; [exact E|apply FIN; exact HQ1]].
      intros k Hk. unfold m2. cbn [at_]. destruct (Z.leb_spec 0 k), (Z.ltb_spec k (8*(8*nw))); cbn [andb]; try lia.
      rewrite numat_tb. change (Z.of_nat 8) with 8. pose proof (Z.mod_pos_bound k 8 ltac:(lia)). destruct (Z.leb_spec 0 (k mod 8)), (Z.ltb_spec (k mod 8) 8); cbn [andb]; try lia.
      rewrite Z.add_0_l, Q by lia. f_equal. rewrite <- (mod_shift k (8 * (k/8)) xia HP) by (apply Z.divide_mul_l; exact D). f_equal. rewrite Z.mod_eq by lia. reflexivity.
    + cbn [bind]. destruct (Z.le_gt_cases (b/8) (8*nw)) as [L|L].
      * destruct (cycle_end_ok f xia HP m1 (b/8) (8*nw)) as [m' [E [_ H1]]]; try lia.
        { rewrite B8. exact D. } { rewrite B8. eapply per_le; [exact Q|lia]. }
        exists m'. split; [exact E|]. apply FIN. eapply per_le; [exact H1|lia].
      * exists m1. split; [|apply FIN; eapply per_le; [exact Q|lia]]. apply end_noop; [lia|lia|destruct (Z.leb_spec (b/8) 8); [lia|reflexivity]|lia].
Qed.

(** elements of whole bytes: every bit of the result *)
Lemma cycle_typ_ok g xk x xia nia : 0 <= xk <= 3 -> 1 <= xia < nia -> nia < 2 ^ 32 - 1 -> msz x = 8 * 2 ^ xk * xia ->
  exists m, cycle_typ g xk x xia nia = Ok m /\ forall k, 0 <= k < 8 * 2 ^ xk * nia -> at_ m k = at_ x (k mod (8 * 2 ^ xk * xia)).
Proof.
  intros Hk Hx Hn Hsx. unfold cycle_typ. destruct (Z.leb_spec (2^32-1) nia); [lia|].
  rewrite !Z.shiftl_mul_pow2 by lia. set (w := 2^xk) in *.
  assert (Hw : 1 <= w <= 8) by (unfold w; split; [apply (Z.pow_le_mono_r 2 0 xk); lia|apply (Z.pow_le_mono_r 2 xk 3); lia]).
  assert (X1 : 1 <= xia * w) by nia. assert (X2 : xia * w < nia * w) by (apply Z.mul_lt_mono_pos_r; lia). assert (X3 : nia * w < 2^40) by nia.
  pose proof (Z.div_mod (nia*w+7) 8 ltac:(lia)) as DM. pose proof (Z.mod_pos_bound (nia*w+7) 8 ltac:(lia)) as DB.
  unfold gcpy. cbn [msz]. replace (msz x) with (8 * (xia*w)) by lia. destruct (Z.leb_spec 0 (8*(xia*w))); [|lia].
  destruct (Z.leb_spec (0+8*(xia*w)) (64*((nia*w+7)/8))); [|lia]. destruct (Z.leb_spec (0+8*(xia*w)) (8*(xia*w))); [|lia].
  change (0 <=? 0) with true. cbn [andb bind].
  set (m := Mem _ _). destruct (cycle_end_ok (at_ x) (8*(xia*w)) ltac:(lia) m (xia*w) (nia*w)) as [m' [E [_ Q]]]; try (cbn [m msz]; lia).
  { apply Z.divide_refl. }
  { intros k Hk2. unfold m. cbn [at_]. destruct (Z.leb_spec 0 k), (Z.ltb_spec k (0+8*(xia*w))); cbn [andb]; try lia. rewrite Z.mod_small by lia. f_equal. lia. }
  exists m'. split; [exact E|]. intros k Hk2. rewrite Q by lia. f_equal. f_equal. lia.
Qed.

(** boxed elements *)
Lemma gcpy_ok {A} (m : gmem A) d src s n : 0 <= d -> 0 <= s -> 0 <= n -> d + n <= msz m -> s + n <= msz src ->
  gcpy m d src s n = Ok (Mem (msz m) (fun k => if (d <=? k) && (k <? d + n) then at_ src (s + (k - d)) else at_ m k)).
Proof.
  intros. unfold gcpy. destruct (Z.leb_spec 0 d); [|lia]. destruct (Z.leb_spec 0 s); [|lia]. destruct (Z.leb_spec 0 n); [|lia].
  destruct (Z.leb_spec (d+n) (msz m)); [|lia]. destruct (Z.leb_spec (s+n) (msz src)); [|lia]. reflexivity.
Qed.
Lemma box_loop_ok {B} (x : gmem B) xia n : forall m i, 0 < xia -> xia <= msz x -> 0 <= i -> (i + Z.of_nat n) * xia <= msz m ->
  (forall k, 0 <= k < i * xia -> at_ m k = at_ x (k mod xia)) ->
  exists m', box_loop n m x i xia = Ok m' /\ msz m' = msz m /\ forall k, 0 <= k < (i + Z.of_nat n) * xia -> at_ m' k = at_ x (k mod xia).
Proof.
  induction n; intros m i Hx Hs Hi Hm H; cbn [box_loop].
  - exists m. split; [reflexivity|]. split; [reflexivity|]. intros k Hk. apply H. nia.
  - rewrite gcpy_ok by nia. cbn [bind].
    destruct (IHn (Mem (msz m) (fun k => if (i*xia <=? k) && (k <? i*xia+xia) then at_ x (0+(k-i*xia)) else at_ m k)) (i+1)) as [m' [E [S1 Q]]]; try lia.
    { cbn [msz]. nia. }
    { intros k Hk. cbn [at_]. destruct (Z.leb_spec (i*xia) k), (Z.ltb_spec k (i*xia+xia)); cbn [andb]; try nia.
      - f_equal. rewrite Z.add_0_l. apply Z.mod_unique with i; lia.
      - apply H. lia. }
    exists m'. split; [exact E|]. split; [exact S1|]. intros k Hk. apply Q. nia.
Qed.
Lemma cycle_box_ok {B} (g : Z -> B) x xia nia : 1 <= xia -> 0 <= nia -> nia <= 2 ^ 31 / 8 - 1000 -> xia <= msz x ->
  exists m, cycle_box g x xia nia = Ok m /\ forall k, 0 <= k < nia -> at_ m k = at_ x (k mod xia).
Proof.
  intros Hx H0 Hn Hs. unfold cycle_box. destruct (Z.ltb_spec (2^31/8-1000) nia); [lia|].
  pose proof (Z.div_mod nia xia ltac:(lia)) as DM. pose proof (Z.mod_pos_bound nia xia ltac:(lia)) as DB. assert (D0 : 0 <= nia / xia) by (apply Z.div_pos; lia).
  destruct (box_loop_ok x xia (Z.to_nat (nia/xia)) (Mem nia g) 0) as [m [E [S1 Q]]]; try lia.
  { cbn [msz]. lia. }
  rewrite E. cbn [bind]. cbn [msz] in S1. rewrite gcpy_ok by lia. eexists. split; [reflexivity|]. intros k Hk. cbn [at_].
  destruct (Z.leb_spec (nia/xia*xia) k), (Z.ltb_spec k (nia/xia*xia+nia mod xia)); cbn [andb]; try lia.
  - f_equal. rewrite Z.add_0_l. apply Z.mod_unique with (nia/xia); lia.
  - apply Q. lia.
Qed.
