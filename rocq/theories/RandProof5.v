From Verif Require Import Base BitsModel BitsSpec BitsProof SqueezeModel WidenModel WidenProof ArithProof2 BinsProof BitopModel BitopSpec BitopProof RandModel RandSpec RandProof RandProof2 RandProof3.

Lemma to_double_exact z : 0 <= z < 2^53 -> to_double z = z.
Proof.
  intros H. unfold to_double. cbv zeta. destruct (Z.leb_spec (Z.log2 z - 52) 0) as [|G]; [reflexivity|]. destruct (Z.eq_dec z 0) as [->|]; [cbn in G; lia|]. assert (Z.log2 z < 53) by (apply Z.log2_lt_pow2; lia). lia.
Qed.
Lemma wy2u01_ok r : 0 <= r < 2^64 -> 0 <= wy2u01 r < 2^52.
Proof. intros H. unfold wy2u01. rewrite Z.shiftr_div_pow2 by lia. change (2^12) with 4096. lia. Qed.
Lemma range1_ok xv seed : 0 <= xv <= 2^53 -> state seed -> exists v seed', range_c1 xv seed = Ok (v, seed') /\ state seed' /\ valid xv v.
Proof.
  intros X S. unfold range_c1. destruct (Z.ltb_spec xv 0); [lia|]. draw S. eexists _, _. split; [reflexivity|]. split; [exact Hs|]. destruct (Z.eqb_spec xv 0); cbn [negb valid].
  - split; [auto|]. apply wy2u01_ok. exact Hr.
  - pose proof (wy2u0k_ok rnd xv Hr ltac:(lia)). rewrite to_double_exact by lia. lia.
Qed.
Lemma draws_ok f (P : Z -> Prop) : (forall r, 0 <= r < 2^64 -> P (f r)) -> forall n seed, state seed -> exists l seed', draws n f seed = (l, seed') /\ state seed' /\ length l = n /\ Forall P l.
Proof.
  intros H. induction n as [|n IH]; intros seed S; cbn [draws]. - exists [], seed. auto.
  - draw S. destruct (IH sd Hs) as (l&s&E&Ss&L&F). rewrite E. exists (f rnd :: l), s. split; [reflexivity|]. split; [exact Ss|]. split; [cbn; lia|]. constructor; auto.
Qed.

(** the memory *)
Definition lane (k : Z) : Prop := k = 1 \/ k = 8 \/ k = 16 \/ k = 32.
Lemma read_ok k am m max : lane k -> 0 <= am -> words m -> am * k <= 64 * len m -> (k = 1 -> 2 <= max) -> (k <> 1 -> max <= 2^(k-1)) -> (forall i, 0 <= i < am -> 0 <= field k m i < max) ->
  exists l, read_lanes k am m = Ok l /\ length l = Z.to_nat am /\ Forall (fun v => 0 <= v < max) l.
Proof.
  intros K A Wm L M1 M2 F. assert (K0 : 0 < k) by (destruct K as [->|[->|[->| ->]]]; lia). unfold read_lanes.
  rewrite (mapM_ok _ (fun i => if k =? 1 then field k m (Z.of_nat i) else to_s k (field k m (Z.of_nat i)))).
  - eexists. split; [reflexivity|]. split; [rewrite map_length, seq_length; reflexivity|]. apply Forall_forall. intros v V. apply in_map_iff in V. destruct V as (i&<-&I). apply in_seq in I. specialize (F (Z.of_nat i) ltac:(lia)). destruct (Z.eqb_spec k 1); [exact F|]. specialize (M2 ltac:(assumption)).
    assert (E : to_s k (field k m (Z.of_nat i)) = field k m (Z.of_nat i)); [|rewrite E; exact F]. apply to_s_fits; [exact K0|]. assert (0 < 2^(k-1)) by (apply Z.pow_pos_nonneg; lia). lia.
  - intros i I. apply in_seq in I. rewrite ldbits_field; [reflexivity|lia|lia|]. nia.
Qed.
Lemma field_ext k m m' i : words m -> words m' -> 0 <= i -> 0 <= k -> (forall b, 0 <= b < k -> mbit m' (i * k + b) = mbit m (i * k + b)) -> field k m' i = field k m i.
Proof.
  intros W1 W2 I K H. rewrite (field_eq k m' i (field k m i)); auto. - apply Z.mod_small. apply field_range; auto. - intros b B. rewrite H, field_bits by auto. reflexivity.
Qed.
Lemma lanes_ok k am max wds junk seed : cellw k -> k <> 64 -> 0 < max <= 2^(k-1) -> 0 <= am -> 0 <= wds <= len junk -> am * k <= 64 * wds -> words junk -> state seed ->
  exists m seed', range_lanes k am max wds junk seed = Ok (m, seed') /\ state seed' /\ len m = wds /\ words m /\ forall i, 0 <= i < am -> 0 <= field k m i < max.
Proof.
  intros K K64 M A Wd L Wj S. assert (K0 : 0 < k) by (destruct K as [->|[->|[->| ->]]]; lia). assert (K2 : 2^(k-1) < 2^k) by (apply Z.pow_lt_mono_r; lia). unfold range_lanes.
  assert (Lj : len (firstn (Z.to_nat wds) junk) = wds) by (unfold len in *; rewrite firstn_length; lia).
  match goal with |- context [for_ _ _ ?f _] => destruct (for_keep f (fun i st => let '(m, sd) := st in state sd /\ len m = wds /\ words m /\ forall j, 0 <= j < i -> 0 <= field k m j < max) (Z.to_nat am) 0 (firstn (Z.to_nat wds) junk, seed)) as ([m s]&E&P) end.
  - intros i [m s] I (Sd&Lm&Wm&F). draw Sd. pose proof (wy2u0k_ok rnd max Hr ltac:(lia)) as V. set (v := wy2u0k rnd max) in *. clearbody v.
    destruct (stbits_spec m (i * k) k v Wm ltac:(nia) K ltac:(rewrite Z.mod_mul; lia) ltac:(nia)) as (m'&E&Lm'&Wm'&B). rewrite E. cbn [bind]. eexists. split; [reflexivity|]. split; [exact Hs|]. split; [lia|]. split; [exact Wm'|]. intros j J.
    destruct (Z.eq_dec j i) as [->|N].
    + rewrite (field_eq k m' i v); auto; try lia. * rewrite Z.mod_small by lia. exact V. * intros b Hb. rewrite B by nia. destruct (Z.leb_spec (i*k) (i*k+b)), (Z.ltb_spec (i*k+b) (i*k+k)); try lia. cbn [andb]. f_equal. lia.
    + rewrite (field_ext k m m' j); [apply F; lia|exact Wm|exact Wm'|lia|lia|]. intros b Hb. rewrite B by nia. destruct (Z.leb_spec (i*k) (j*k+b)); [nia|reflexivity].
  - split; [exact S|]. split; [exact Lj|]. split; [|intros; lia]. unfold words in *. rewrite <- (firstn_skipn (Z.to_nat wds) junk) in Wj. apply Forall_app in Wj. apply Wj.
  - exists m, s. split; [exact E|]. replace (0 + Z.of_nat (Z.to_nat am)) with am in P by lia. exact P.
Qed.
Lemma land_words r mask : 0 <= r < 2^64 -> 0 <= mask -> 0 <= Z.land r mask < 2^64.
Proof.
  intros R M. assert (N : 0 <= Z.land r mask) by (apply Z.land_nonneg; lia). split; [exact N|]. destruct (Z.eq_dec (Z.land r mask) 0); [lia|]. apply Z.log2_lt_pow2; [lia|]. pose proof (Z.log2_land r mask ltac:(lia) ltac:(lia)). destruct (Z.eq_dec r 0) as [->|]; [rewrite Z.land_0_l in *; lia|]. assert (Z.log2 r < 64) by (apply Z.log2_lt_pow2; lia). lia.
Qed.
Lemma words_ok mask wds junk seed : 0 <= mask -> 0 <= wds <= len junk -> words junk -> state seed ->
  exists m seed', range_words mask wds wds junk seed = Ok (m, seed') /\ state seed' /\ len m = wds /\ words m /\ forall p, 0 <= p < 64 * wds -> Z.testbit mask (p mod 64) = false -> mbit m p = false.
Proof.
  intros M Wd Wj S. unfold range_words. assert (Lj : len (firstn (Z.to_nat wds) junk) = wds) by (unfold len in *; rewrite firstn_length; lia).
  match goal with |- context [for_ _ _ ?f _] => destruct (for_keep f (fun i st => let '(m, sd) := st in state sd /\ len m = wds /\ words m /\ forall p, 0 <= p < 64 * i -> Z.testbit mask (p mod 64) = false -> mbit m p = false) (Z.to_nat wds) 0 (firstn (Z.to_nat wds) junk, seed)) as ([m s]&E&P) end.
  - intros i [m s] I (Sd&Lm&Wm&F). draw Sd. rewrite wrz_ok by lia. cbn [bind]. eexists. split; [reflexivity|]. split; [exact Hs|]. split; [rewrite len_upd; exact Lm|]. split; [apply words_upd; auto; apply land_words; auto|]. intros p P T. rewrite mbit_upd by lia. destruct (Z.eqb_spec (p / 64) i).
    + rewrite Z.land_spec, T. apply andb_false_r. + apply F; auto. lia.
  - split; [exact S|]. split; [exact Lj|]. split; [|intros; lia]. unfold words in *. rewrite <- (firstn_skipn (Z.to_nat wds) junk) in Wj. apply Forall_app in Wj. apply Wj.
  - exists m, s. split; [exact E|]. replace (0 + Z.of_nat (Z.to_nat wds)) with wds in P by lia. exact P.
Qed.
Lemma mask_bits e b : 2 <= e <= 31 -> 0 <= b < 64 -> e <= b mod bits_for (2^e) -> Z.testbit (range_mask (bits_for (2^e)) (2^e)) b = false.
Proof.
  intros E B H. assert (F : forallb (fun e => forallb (fun b => (Z.of_nat b mod bits_for (2^Z.of_nat e) <? Z.of_nat e) || negb (Z.testbit (range_mask (bits_for (2^Z.of_nat e)) (2^Z.of_nat e)) (Z.of_nat b))) (seq 0 64)) (seq 2 30) = true) by (vm_compute; reflexivity).
  rewrite forallb_forall in F. specialize (F (Z.to_nat e) ltac:(apply in_seq; lia)). cbn beta in F. rewrite forallb_forall in F. specialize (F (Z.to_nat b) ltac:(apply in_seq; lia)). cbn beta in F. rewrite !Z2Nat.id in F by lia. destruct (Z.ltb_spec (b mod bits_for (2^e)) e); [lia|]. cbn [orb] in F. apply negb_true_iff in F. exact F.
Qed.
Lemma mask_pos e : 1 <= e <= 31 -> 0 <= range_mask (bits_for (2^e)) (2^e).
Proof.
  intros E. assert (F : forallb (fun e => 0 <=? range_mask (bits_for (2^Z.of_nat e)) (2^Z.of_nat e)) (seq 1 31) = true) by (vm_compute; reflexivity).
  rewrite forallb_forall in F. specialize (F (Z.to_nat e) ltac:(apply in_seq; lia)). cbn beta in F. rewrite !Z2Nat.id in F by lia. lia.
Qed.
Lemma type_ok am max : 0 <= am < 2^32 -> 2 <= max <= 2^31 -> packed am max -> range_type am max = (bits_for max, (am * bits_for max + 63) / 64) /\ lane (bits_for max) /\ (bits_for max = 1 -> max = 2) /\ (bits_for max <> 1 -> max <= 2^(bits_for max - 1)).
Proof.
  intros A M. unfold packed, range_type, bits_for, lane, to_u. destruct (Z.eqb_spec max 2) as [->|N].
  - change (128 <? 2) with false. cbn [negb]. change (64 / 1) with 64. intros (P1&P2). rewrite Z.mod_small by lia. split; [f_equal; f_equal; lia|]. repeat split; auto; lia.
  - destruct (Z.ltb_spec 128 max), (Z.leb_spec max 128); try lia.
    + destruct (Z.ltb_spec 32768 max), (Z.leb_spec max 32768); try lia; [change (64 / 32) with 2|change (64 / 16) with 4]; intros (P1&P2); rewrite Z.mod_small by lia; (split; [f_equal; lia|]); [change (2^(32 - 1)) with 2147483648|change (2^(16 - 1)) with 32768]; repeat split; auto; lia.
    + cbn [negb]. change (64 / 8) with 8. intros (P1&P2). rewrite Z.mod_small by lia. split; [f_equal; lia|]. change (2^(8 - 1)) with 128. repeat split; auto; lia.
Qed.
Definition room (am : Z) (junk : list Z) : Prop := words junk /\ am * 32 + 64 <= 64 * len junk.
Lemma range2_ok am max seed junk : 0 <= am < 2^32 -> 0 <= max < 2^53 -> (doubles max -> small am) -> (~ doubles max -> max <> 1 -> packed am max) -> room am junk -> state seed ->
  exists l seed', range_c2 am max seed junk = Ok (l, seed') /\ state seed' /\ length l = Z.to_nat am /\ Forall (valid max) l.
Proof.
  intros A M D P (Wj&Lj) S. unfold range_c2. assert (Wh : forall l, 0 < max -> Forall (fun v => 0 <= v < max) l -> Forall (valid max) (map Whole l)). { intros l M0 F. rewrite Forall_map. eapply Forall_impl; [|exact F]. cbn beta. intros v V. split; auto. }
  assert (Ci : small am -> check_ia8 am = true). { intros H. unfold small, check_ia8 in *. apply Z.leb_le. change (2^31/8) with (2^28). exact H. }
  destruct (Z.leb_spec max 1).
  - destruct (Z.eqb_spec max 0) as [->|].
    + rewrite Ci by (apply D; left; auto). destruct (draws_ok wy2u01 (fun v => 0 <= v < 2^52) wy2u01_ok (Z.to_nat am) seed S) as (l&s&E&Ss&L&F). rewrite E. eexists _, s. split; [reflexivity|]. split; [exact Ss|]. split; [rewrite map_length; exact L|]. rewrite Forall_map. eapply Forall_impl; [|exact F]. cbn beta. intros v V. split; auto.
    + destruct (Z.eqb_spec max 1); [|lia]. cbn [negb]. eexists _, seed. split; [reflexivity|]. split; [exact S|]. split; [rewrite map_length, repeat_length; reflexivity|]. apply Wh; [lia|]. apply Forall_forall. intros v V. apply repeat_spec in V. lia.
  - destruct (Z.ltb_spec (2^31) max) as [G|G].
    + destruct (Z.leb_spec (2^53) max); [lia|]. rewrite Ci by (apply D; right; auto). destruct (draws_ok (fun r => to_double (wy2u0k r max)) (fun v => 0 <= v < max)) with (n := Z.to_nat am) (seed := seed) as (l&s&E&Ss&L&F); auto. { intros r R. pose proof (wy2u0k_ok r max R ltac:(lia)). rewrite to_double_exact by lia. auto. }
      rewrite E. eexists _, s. split; [reflexivity|]. split; [exact Ss|]. split; [rewrite map_length; exact L|]. apply Wh; auto. lia.
    + assert (Pk : packed am max) by (apply P; [unfold doubles; lia|lia]). destruct (type_ok am max A ltac:(lia) Pk) as (Et&La&K1&K2). rewrite Et. set (k := bits_for max) in *. set (u := (am * k + 63) / 64) in *.
      assert (Kb : 0 < k <= 32) by (destruct La as [->|[->|[->| ->]]]; lia). assert (U : 0 <= u /\ u * 8 < 2^32 /\ am * k <= 64 * u /\ u <= len junk). { destruct Pk as (_&Pk). unfold u in *. fold k in Pk. assert (am * k <= am * 32) by nia. assert (0 <= am * k) by nia. set (y := am * k) in *. clearbody y. clear - H0 H1 Pk Lj. repeat split; lia. }
      destruct U as (U0&U1&U2&U3). unfold to_u. rewrite Z.mod_small by lia. rewrite Z.div_mul by lia. clearbody u.
      pose proof (pow2_land max ltac:(lia)) as Pl. destruct (Z.eqb_spec (Z.land max (max - 1)) 0) as [E0|N0]; cbn [negb].
      * apply Pl in E0. destruct E0 as (e&Ee&Em). assert (E1 : 1 <= e <= 31). { split. - destruct (Z.eq_dec e 0) as [->|]; [cbn in Em; lia|lia]. - lia. }
        assert (Mp : 0 <= range_mask k max) by (unfold k; rewrite Em; apply mask_pos; auto). destruct (words_ok (range_mask k max) u junk seed Mp ltac:(lia) Wj S) as (m&s&E&Ss&Lm&Wm&F). rewrite E. cbn [bind].
        assert (Fi : forall i, 0 <= i < am -> 0 <= field k m i < max). { intros i I. pose proof (field_range k m i ltac:(lia)) as R. destruct (Z.eq_dec k 1) as [Ek|Nk]; [rewrite (K1 Ek); assert (Tk : 2^k = 2) by (rewrite Ek; reflexivity); rewrite Tk in R; exact R|].
          split; [lia|]. rewrite Em. assert (E2 : 2 <= e). { destruct (Z.eq_dec e 1) as [->|]; [|lia]. exfalso. apply Nk. unfold k. rewrite Em. reflexivity. }
          destruct (Z.lt_ge_cases (field k m i) (2^e)) as [|Ge]; [auto|]. exfalso. assert (Lg : e <= Z.log2 (field k m i) < k). { split; [apply Z.log2_le_pow2; lia|]. apply Z.log2_lt_pow2; [|lia]. assert (0 < 2^e) by (apply Z.pow_pos_nonneg; lia). lia. }
          assert (B0 : 0 < field k m i) by (assert (0 < 2^e) by (apply Z.pow_pos_nonneg; lia); lia). pose proof (Z.bit_log2 (field k m i) B0) as Bt. set (b := Z.log2 (field k m i)) in *. rewrite field_bits in Bt by (auto; lia). rewrite F in Bt; [discriminate| |].
          - nia.
          - unfold k. rewrite Em. apply mask_bits; [lia|apply Z.mod_pos_bound; lia|]. rewrite <- Em. fold k. assert (Mm : ((i * k + b) mod 64) mod k = b); [|rewrite Mm; lia]. destruct La as [->|[->|[->| ->]]]; lia. }
        destruct (read_ok k am m max La ltac:(lia) Wm ltac:(lia) ltac:(lia) K2 Fi) as (l&El&Ll&Fl). rewrite El. cbn [bind]. eexists _, s. split; [reflexivity|]. split; [exact Ss|]. split; [rewrite map_length; exact Ll|]. apply Wh; auto. lia.
      * assert (Nk : k <> 1). { intros Ek. apply N0. rewrite (K1 Ek). reflexivity. } assert (Cw : cellw k) by (destruct La as [?|[?|[?|?]]]; unfold cellw; auto; lia).
        destruct (lanes_ok k am max u junk seed Cw ltac:(lia) ltac:(split; [lia|apply K2; auto]) ltac:(lia) ltac:(lia) U2 Wj S) as (m&s&E&Ss&Lm&Wm&Fi). rewrite E. cbn [bind].
        destruct (read_ok k am m max La ltac:(lia) Wm ltac:(lia) ltac:(lia) K2 Fi) as (l&El&Ll&Fl). rewrite El. cbn [bind]. eexists _, s. split; [reflexivity|]. split; [exact Ss|]. split; [rewrite map_length; exact Ll|]. apply Wh; auto. lia.
Qed.

(** the number of elements *)
Definition cstep := (fun (st : Z * bool * bool) c => let '(am, bad, good) := st in (to_u 32 (am * c), bad || (2^32 <=? am * c), good || (c =? 0))).
Lemma count_fold : forall w am bad good, 0 <= am < 2^32 -> Forall (fun c => 0 <= c < 2^32) w ->
  exists bad', fold_left cstep w (am, bad, good) = ((am * product w) mod 2^32, bad', good || existsb (Z.eqb 0) w) /\ (existsb (Z.eqb 0) w = false -> bad' = bad || (2^32 <=? am * product w)).
Proof.
  induction w as [|c w IH]; intros am bad good A F; cbn [fold_left product fold_right existsb].
  - exists bad. rewrite Z.mul_1_r, Z.mod_small, orb_false_r by lia. split; [reflexivity|]. intros _. destruct (Z.leb_spec (2^32) am); [lia|]. rewrite orb_false_r. reflexivity.
  - pose proof (Forall_inv F) as C. apply Forall_inv_tail in F. cbn beta in C. cbn [cstep]. unfold to_u. destruct (IH ((am * c) mod 2^32) (bad || (2^32 <=? am * c)) (good || (c =? 0)) ltac:(apply Z.mod_pos_bound; lia) F) as (b&E&B). exists b. split.
    + change (cstep (am, bad, good) c) with ((am * c) mod 2^32, bad || (2^32 <=? am * c), good || (c =? 0)). rewrite E. fold (product w). rewrite Z.mul_mod_idemp_l by lia. rewrite Z.mul_assoc. rewrite (Z.eqb_sym 0 c), orb_assoc. reflexivity.
    + intros N. apply orb_false_iff in N. destruct N as (N1&N2). rewrite (B N2). fold (product w). assert (Pw : 1 <= product w). { clear - N2 F. induction F as [|d w D F IH]; [cbn; lia|]. cbn [existsb] in N2. apply orb_false_iff in N2. destruct N2 as (Nd&Nw). cbn [product fold_right]. fold (product w). specialize (IH Nw). apply Z.eqb_neq in Nd. nia. }
      apply Z.eqb_neq in N1. destruct (Z.leb_spec (2^32) (am * c)) as [L|G].
      * rewrite orb_true_r. cbn [orb]. symmetry. replace (am * (c * product w)) with (am * c * product w) by lia. destruct (Z.leb_spec (2^32) (am * c * product w)); [apply orb_true_r|]. nia.
      * rewrite orb_false_r. rewrite Z.mod_small by nia. rewrite Z.mul_assoc. reflexivity.
Qed.
Lemma product_zero w : existsb (Z.eqb 0) w = true -> product w = 0.
Proof. induction w as [|c w IH]; [discriminate|]. cbn [existsb product fold_right]. fold (product w). destruct (Z.eqb_spec 0 c); [nia|]. cbn [orb]. intros H. rewrite (IH H). lia. Qed.
Lemma count_ok w : Forall (fun c => 0 <= c < 2^32) w -> range_count w = if 2^32 <=? product w then Err else Ok (product w).
Proof.
  intros F. unfold range_count. fold cstep. destruct (count_fold w 1 false false ltac:(lia) F) as (b&E&B). rewrite E. rewrite Z.mul_1_l in *. cbn [orb].
  assert (P0 : 0 <= product w). { clear - F. induction F; [cbn; lia|]. cbn [product fold_right]. fold (product l). nia. }
  destruct (existsb (Z.eqb 0) w) eqn:X. - rewrite andb_false_r, (product_zero w X). reflexivity.
  - rewrite (B eq_refl). cbn [orb negb]. rewrite andb_true_r. destruct (Z.leb_spec (2^32) (product w)); [reflexivity|]. rewrite Z.mod_small by lia. reflexivity.
Qed.
