(** The digit removal of the printer keeps the decimal inside of the interval of numbers that round back. *)
From Verif Require Import Base SqueezeModel SqueezeProof RyuTable RyuModel RyuSpec RyuRound.
Open Scope Z_scope.

Lemma low_mod_ok k x : 1 <= k < 2 ^ 32 -> 0 <= x -> low_mod k x = x mod k.
Proof.
  intros Hk Hx. unfold low_mod, to_u.
  rewrite Z.mul_mod_idemp_r by lia. rewrite <- Zminus_mod.
  pose proof (Z.div_mod x k ltac:(lia)). replace (x - k * (x / k)) with (x mod k) by lia.
  pose proof (Z.mod_pos_bound x k ltac:(lia)). apply Z.mod_small. lia.
Qed.

Section Remove.
Variables (N D mv mm mp Vr Vp Vm del : Z) (accept : bool).
Hypothesis HD : 0 < D.
Hypothesis HND : D <= N.
Hypothesis Hmm : 1 <= mm.
Hypothesis Hmv : mv - 2 <= mm <= mv - 1.
Hypothesis Hmp : mp = mv + 2.
Hypothesis HVr : Vr = mv * N / D.
Hypothesis HVp : Vp = mp * N / D - del.
Hypothesis HVm : Vm = mm * N / D.
Hypothesis Hdel : del = 0 \/ (del = 1 /\ accept = false /\ (D | mp * N)).
Hypothesis Hbig : Vp < 10 ^ 39.

Lemma floor_bounds x : D * (x * N / D) <= x * N < D * (x * N / D) + D.
Proof.
  pose proof (Z.mul_div_le (x * N) D HD). pose proof (Z.mul_succ_div_gt (x * N) D HD). lia.
Qed.
Lemma floor_step x y : x <= y -> x * N / D + (y - x) <= y * N / D.
Proof.
  intros H. apply Z.div_le_lower_bound; [exact HD|]. pose proof (floor_bounds x).
  rewrite Z.mul_add_distr_l. assert (D * (y - x) <= N * (y - x)) by (apply Z.mul_le_mono_nonneg_r; lia). lia.
Qed.
Lemma order : 1 <= Vm /\ Vm + 1 <= Vr /\ Vr + 1 <= Vp.
Proof.
  pose proof (floor_step 0 mm ltac:(lia)). rewrite Z.mul_0_l, Z.div_0_l in H by lia.
  pose proof (floor_step mm mv ltac:(lia)). pose proof (floor_step mv mp ltac:(lia)). lia.
Qed.

Lemma pow_pos k : 0 <= k -> 0 < 10 ^ k.
Proof. intros. apply Z.pow_pos_nonneg; lia. Qed.
Lemma div_next x k : 0 <= k -> x / 10 ^ k / 10 = x / 10 ^ (k + 1).
Proof.
  intros Hk. pose proof (pow_pos k Hk). rewrite Z.div_div by lia. rewrite Z.pow_add_r by lia. reflexivity.
Qed.
Lemma mod_next x k : 0 <= k -> x mod 10 ^ (k + 1) = x mod 10 ^ k + 10 ^ k * (x / 10 ^ k mod 10).
Proof.
  intros Hk. pose proof (pow_pos k Hk). rewrite Z.pow_add_r by lia. change (10 ^ 1) with 10. apply Z.rem_mul_r; lia.
Qed.
Lemma split_at x k : 0 <= k -> 10 ^ k * (x / 10 ^ k) + x mod 10 ^ k = x /\ 0 <= x mod 10 ^ k < 10 ^ k.
Proof.
  intros Hk. pose proof (pow_pos k Hk). split; [symmetry; apply Z.div_mod; lia|apply Z.mod_pos_bound; lia].
Qed.

(** the final decimal is good *)
Definition good (o r : Z) : Prop :=
  0 <= r /\ 0 < o /\ (mm * N < o * 10 ^ r * D \/ (accept = true /\ mm * N = o * 10 ^ r * D)) /\
  o * 10 ^ r <= Vp /\ (r = 0 -> o = Vr) /\ N < 4 * 10 ^ r * D.

(** rounding up stays below the upper bound *)
Lemma round_up k : 0 <= k -> 10 ^ k <= 2 * (Vr mod 10 ^ k) ->
  (Vm / 10 ^ k < Vr / 10 ^ k \/ (accept = true /\ (D | mm * N) /\ Vm mod 10 ^ k = 0)) ->
  Vr / 10 ^ k + 1 <= Vp / 10 ^ k.
Proof.
  intros Hk Hup Hlow. pose proof order as [O1 [O2 O3]].
  pose proof (pow_pos k Hk) as HR. destruct (split_at Vr k Hk) as [Sr Br]. destruct (split_at Vm k Hk) as [Sm Bm].
  destruct (split_at Vp k Hk) as [Sp Bp].
  set (R := 10 ^ k) in *. set (vr := Vr / R) in *. set (vm := Vm / R) in *. set (vp := Vp / R) in *.
  destruct (Z.le_gt_cases (vr + 1) vp) as [|Hc]; [assumption|exfalso].
  pose proof (floor_bounds mv) as Fv. pose proof (floor_bounds mm) as Fm. pose proof (floor_bounds mp) as Fp.
  rewrite <- HVr in Fv. rewrite <- HVm in Fm.
  assert (Ep : mp * N / D = Vp + del) by lia. rewrite Ep in Fp.
  assert (Up : mp * N <= D * (R * (vr + 1)) /\ (accept = true -> mp * N < D * (R * (vr + 1)))).
  { assert (Vp + 1 <= R * (vr + 1)).
    { assert (R * vp <= R * vr) by (apply Z.mul_le_mono_nonneg_l; lia). lia. }
    assert (D * (Vp + 1) <= D * (R * (vr + 1))) by (apply Z.mul_le_mono_nonneg_l; lia).
    destruct Hdel as [->|(-> & Ha & Hdv)].
    - split; [|intros _]; lia.
    - split; [|rewrite Ha; discriminate].
      assert (Ex : mp * N = D * (mp * N / D)).
      { destruct Hdv as [z Hz]. rewrite Hz, Z.div_mul by lia. ring. }
      rewrite Ep in Ex. lia. }
  destruct Up as [Up Ups].
  assert (Half : D * (R * vr) * 2 + D * R <= mv * N * 2).
  { assert (D * (R * vr + Vr mod R) <= mv * N) by (rewrite Sr; lia).
    assert (D * R <= D * (2 * (Vr mod R))) by (apply Z.mul_le_mono_nonneg_l; lia). lia. }
  assert (Sym : mv * N * 2 - mm * N <= mp * N).
  { assert (mv * 2 * N - mm * N <= mp * N); [|lia].
    rewrite <- Z.mul_sub_distr_r. apply Z.mul_le_mono_nonneg_r; lia. }
  destruct Hlow as [Hlow|(Ha & Hdv & Hz)].
  - assert (mm * N < D * (R * vr)).
    { assert (Vm + 1 <= R * vr).
      { assert (R * (vm + 1) <= R * vr) by (apply Z.mul_le_mono_nonneg_l; lia). lia. }
      assert (D * (Vm + 1) <= D * (R * vr)) by (apply Z.mul_le_mono_nonneg_l; lia). lia. }
    lia.
  - specialize (Ups Ha).
    assert (mm * N <= D * (R * vr)).
    { destruct Hdv as [z Hz']. assert (Em : mm * N = D * Vm) by (rewrite HVm, Hz', Z.div_mul by lia; ring).
      rewrite Em. apply Z.mul_le_mono_nonneg_l; [lia|].
      assert (R * vm <= R * vr); [|lia]. apply Z.mul_le_mono_nonneg_l; [lia|]. apply Z.div_le_mono; lia. }
    lia.
Qed.

(** the state after [k] digits have been removed *)
Definition at_k (k vr vp vm : Z) : Prop := 0 <= k /\ vr = Vr / 10 ^ k /\ vp = Vp / 10 ^ k /\ vm = Vm / 10 ^ k.
Definition tz_ok (k : Z) (vmz : bool) : Prop := vmz = true -> accept = true /\ (D | mm * N) /\ Vm mod 10 ^ k = 0.
Definition up_ok (k : Z) (up : bool) : Prop := up = true -> 1 <= k /\ 10 ^ k <= 2 * (Vr mod 10 ^ k).

Lemma at_next k vr vp vm : at_k k vr vp vm -> at_k (k + 1) (vr / 10) (vp / 10) (vm / 10).
Proof. intros (Hk & -> & -> & ->). unfold at_k. rewrite !div_next by exact Hk. repeat split; lia. Qed.
Lemma tz_next k vr vp vm vmz : at_k k vr vp vm -> tz_ok k vmz -> tz_ok (k + 1) (vmz && (low_mod 10 vm =? 0)).
Proof.
  intros (Hk & -> & -> & ->) H HH. apply andb_prop in HH as [-> H2].
  destruct (H eq_refl) as (Ha & Hd & Hz). split; [exact Ha|]. split; [exact Hd|].
  pose proof order. pose proof (pow_pos k Hk).
  rewrite low_mod_ok in H2 by (try apply Z.div_pos; lia). apply Z.eqb_eq in H2.
  rewrite mod_next by exact Hk. rewrite Hz, H2. lia.
Qed.
Lemma up_next k vr vp vm : at_k k vr vp vm -> up_ok (k + 1) (5 <=? low_mod 10 vr).
Proof.
  intros (Hk & -> & -> & ->) H. split; [lia|]. pose proof order. pose proof (pow_pos k Hk).
  rewrite low_mod_ok in H by (try apply Z.div_pos; lia). apply Z.leb_le in H.
  rewrite mod_next by exact Hk. pose proof (Z.mod_pos_bound Vr (10 ^ k) ltac:(lia)).
  assert (10 ^ k * 5 <= 10 ^ k * (Vr / 10 ^ k mod 10)) by (apply Z.mul_le_mono_nonneg_l; lia).
  rewrite Z.pow_add_r by lia. change (10 ^ 1) with 10. lia.
Qed.

(** how far the loops remove digits *)
Lemma width k vr vp vm : at_k k vr vp vm -> vp / 10 <= vm / 10 -> N < 4 * 10 ^ k * D.
Proof.
  intros (Hk & -> & -> & ->) H. pose proof (pow_pos k Hk) as HR.
  destruct (split_at Vm k Hk) as [Sm Bm]. destruct (split_at Vp k Hk) as [Sp Bp]. set (R := 10 ^ k) in *.
  assert (Vp / R <= Vm / R + 9) by lia.
  assert (Vp < Vm + 10 * R).
  { assert (R * (Vp / R) <= R * (Vm / R + 9)) by (apply Z.mul_le_mono_nonneg_l; lia). lia. }
  pose proof (floor_bounds mm) as Fm. pose proof (floor_bounds mp) as Fp.
  rewrite <- HVm in Fm. assert (Ep : mp * N / D = Vp + del) by lia. rewrite Ep in Fp.
  assert (mp * N < D * (Vm + 10 * R + del)).
  { assert (D * (Vp + del + 1) <= D * (Vm + 10 * R + del)) by (apply Z.mul_le_mono_nonneg_l; lia). lia. }
  assert (3 * N <= (mp - mm) * N) by (apply Z.mul_le_mono_nonneg_r; lia).
  rewrite Z.mul_sub_distr_r in H3.
  assert (D * del <= D * R) by (apply Z.mul_le_mono_nonneg_l; lia).
  assert (3 * N < D * (11 * R)) by lia. lia.
Qed.
Lemma width_more k k' : 0 <= k <= k' -> N < 4 * 10 ^ k * D -> N < 4 * 10 ^ k' * D.
Proof.
  intros Hk H. eapply Z.lt_le_trans; [exact H|]. apply Z.mul_le_mono_nonneg_r; [lia|].
  apply Z.mul_le_mono_nonneg_l; [lia|]. apply Z.pow_le_mono_r; lia.
Qed.

(** ** The common case *)
Lemma com_loop_ok fuel : forall k vr vp vm up, at_k k vr vp vm -> vm < vp -> up_ok k up -> vp < 10 ^ Z.of_nat fuel ->
  exists k' vr' vp' vm' up', com_loop (S fuel) (vr, vp, vm, k, up) = Ok (vr', vp', vm', k', up') /\
    at_k k' vr' vp' vm' /\ vm' < vp' /\ up_ok k' up' /\ N < 4 * 10 ^ k' * D.
Proof.
  pose proof order as Ord.
  induction fuel as [|f IH]; intros k vr vp vm up HA HL HU HF.
  - exfalso. change (10 ^ Z.of_nat 0) with 1 in HF. destruct HA as (Hk & _ & _ & ->).
    assert (0 <= Vm / 10 ^ k) by (apply Z.div_pos; [lia|apply pow_pos; lia]). lia.
  - remember (S f) as sf. cbn [com_loop]. destruct (Z.leb_spec (vp / 10) (vm / 10)).
    + do 5 eexists. split; [reflexivity|]. split; [exact HA|]. split; [exact HL|]. split; [exact HU|].
      eapply width; eauto.
    + subst sf. apply IH; [apply at_next; exact HA|exact H|eapply up_next; exact HA|].
      rewrite Nat2Z.inj_succ, Z.pow_succ_r in HF by lia. apply Z.div_lt_upper_bound; lia.
Qed.
Lemma finish k vr vp vm : at_k k vr vp vm -> vm < vp -> N < 4 * 10 ^ k * D ->
  forall up, up_ok k up -> good (vr + (if (vr =? vm) || up then 1 else 0)) k.
Proof.
  intros (Hk & -> & -> & ->) HL HW up HU. pose proof order as (O1 & O2 & O3). pose proof (pow_pos k Hk) as HR.
  destruct (split_at Vr k Hk) as [Sr Br]. destruct (split_at Vm k Hk) as [Sm Bm]. destruct (split_at Vp k Hk) as [Sp Bp].
  assert (Hle1 : Vm / 10 ^ k <= Vr / 10 ^ k) by (apply Z.div_le_mono; lia).
  assert (Hle2 : Vr / 10 ^ k <= Vp / 10 ^ k) by (apply Z.div_le_mono; lia).
  assert (H0 : 0 <= Vm / 10 ^ k) by (apply Z.div_pos; lia).
  assert (RU : up = true -> Vm / 10 ^ k <> Vr / 10 ^ k -> Vr / 10 ^ k + 1 <= Vp / 10 ^ k).
  { intros Hu Hne. destruct (HU Hu) as [Hk1 Hh]. apply round_up; [exact Hk|exact Hh|]. left. lia. }
  assert (K0 : k = 0 -> up = false /\ Vr / 10 ^ k = Vr /\ Vm / 10 ^ k = Vm).
  { intros ->. change (10 ^ 0) with 1. rewrite !Z.div_1_r. destruct up; [destruct (HU eq_refl); lia|auto]. }
  set (o := Vr / 10 ^ k + (if (Vr / 10 ^ k =? Vm / 10 ^ k) || up then 1 else 0)).
  assert (Ho : Vm / 10 ^ k + 1 <= o <= Vp / 10 ^ k).
  { unfold o. destruct (Z.eqb_spec (Vr / 10 ^ k) (Vm / 10 ^ k)); cbn [orb]; [lia|].
    destruct up; [specialize (RU eq_refl ltac:(lia))|]; lia. }
  assert (Hk0 : k = 0 -> o = Vr).
  { intros E. destruct (K0 E) as (-> & E1 & E2). unfold o. rewrite E1, E2. destruct (Z.eqb_spec Vr Vm); [lia|]. cbn [orb]. lia. }
  clearbody o. set (R := 10 ^ k) in *.
  assert (L1 : R * (Vm / R + 1) <= R * o) by (apply Z.mul_le_mono_nonneg_l; lia).
  assert (L2 : R * o <= R * (Vp / R)) by (apply Z.mul_le_mono_nonneg_l; lia).
  split; [exact Hk|]. split; [lia|]. split.
  { left. pose proof (floor_bounds mm) as Fm. rewrite <- HVm in Fm.
    assert (D * (Vm + 1) <= D * (R * o)) by (apply Z.mul_le_mono_nonneg_l; lia). fold R. lia. }
  split; [fold R; lia|]. split; [exact Hk0|exact HW].
Qed.

Lemma fuel40 : Vp < 10 ^ Z.of_nat 39.
Proof. exact Hbig. Qed.

Lemma common_ok : exists o r, common Vr Vp Vm = Ok (o, r) /\ good o r.
Proof.
  pose proof order as (O1 & O2 & O3). unfold common. cbv zeta.
  assert (A0 : at_k 0 Vr Vp Vm) by (unfold at_k; change (10 ^ 0) with 1; rewrite !Z.div_1_r; repeat split; lia).
  assert (S : exists k vr vp vm up, (if Vm / 100 <? Vp / 100 then (Vr / 100, Vp / 100, Vm / 100, 2, 50 <=? low_mod 100 Vr)
     else (Vr, Vp, Vm, 0, false)) = (vr, vp, vm, k, up) /\ at_k k vr vp vm /\ vm < vp /\ up_ok k up /\ vp < 10 ^ Z.of_nat 39).
  { destruct (Z.ltb_spec (Vm / 100) (Vp / 100)).
    - do 5 eexists. split; [reflexivity|]. split.
      + unfold at_k. change (10 ^ 2) with 100. repeat split; lia.
      + split; [assumption|]. split.
        * intros Hu. rewrite low_mod_ok in Hu by lia. apply Z.leb_le in Hu. change (10 ^ 2) with 100. lia.
        * pose proof fuel40. apply Z.div_lt_upper_bound; lia.
    - do 5 eexists. split; [reflexivity|]. split; [exact A0|]. split; [lia|]. split; [discriminate|exact fuel40]. }
  destruct S as (k & vr & vp & vm & up & -> & HA & HL & HU & HF).
  destruct (com_loop_ok 39 k vr vp vm up HA HL HU HF) as (k' & vr' & vp' & vm' & up' & E & HA' & HL' & HU' & HW).
  rewrite E. cbn [bind]. do 2 eexists. split; [reflexivity|].
  destruct HA' as (Hk' & Evr & Evp & Evm). apply (finish k' vr' vp' vm'); try assumption. unfold at_k; auto.
Qed.

(** ** The general case *)
Lemma gen1_ok fuel : forall k vr vp vm last vmz vrz, at_k k vr vp vm -> vm < vp -> up_ok k (5 <=? last) -> tz_ok k vmz ->
  vp < 10 ^ Z.of_nat fuel ->
  exists k' vr' vp' vm' last' vmz' vrz', gen_loop1 (S fuel) (vr, vp, vm, k, last, vmz, vrz) = Ok (vr', vp', vm', k', last', vmz', vrz') /\
    at_k k' vr' vp' vm' /\ vm' < vp' /\ up_ok k' (5 <=? last') /\ tz_ok k' vmz' /\ N < 4 * 10 ^ k' * D.
Proof.
  pose proof order as Ord.
  induction fuel as [|f IH]; intros k vr vp vm last vmz vrz HA HL HU HT HF.
  - exfalso. change (10 ^ Z.of_nat 0) with 1 in HF. destruct HA as (Hk & _ & _ & ->).
    assert (0 <= Vm / 10 ^ k) by (apply Z.div_pos; [lia|apply pow_pos; lia]). lia.
  - remember (S f) as sf. cbn [gen_loop1]. destruct (Z.leb_spec (vp / 10) (vm / 10)).
    + do 7 eexists. split; [reflexivity|]. split; [exact HA|]. split; [exact HL|]. split; [exact HU|]. split; [exact HT|].
      eapply width; eauto.
    + subst sf. apply IH; [apply at_next; exact HA|exact H|eapply up_next; exact HA|eapply tz_next; eauto|].
      rewrite Nat2Z.inj_succ, Z.pow_succ_r in HF by lia. apply Z.div_lt_upper_bound; lia.
Qed.
Lemma gen2_ok fuel : forall k vr vp vm last vrz, at_k k vr vp vm -> up_ok k (5 <=? last) -> tz_ok k true -> 0 < vm ->
  vm < 10 ^ Z.of_nat fuel ->
  exists k' vr' vp' vm' last' vrz', gen_loop2 (S fuel) (vr, vp, vm, k, last, true, vrz) = Ok (vr', vp', vm', k', last', true, vrz') /\
    at_k k' vr' vp' vm' /\ up_ok k' (5 <=? last') /\ tz_ok k' true /\ k <= k'.
Proof.
  induction fuel as [|f IH]; intros k vr vp vm last vrz HA HU HT H0 HF.
  - exfalso. change (10 ^ Z.of_nat 0) with 1 in HF. lia.
  - remember (S f) as sf. cbn [gen_loop2]. destruct (low_mod 10 vm =? 0) eqn:EZ; cbn [negb].
    + subst sf. pose proof (tz_next k vr vp vm true HA HT) as HT'. rewrite EZ in HT'. cbn [andb] in HT'.
      rewrite low_mod_ok in EZ by lia. apply Z.eqb_eq in EZ.
      destruct (IH (k + 1) (vr / 10) (vp / 10) (vm / 10) (low_mod 10 vr) (vrz && (last =? 0))) as (k' & vr' & vp' & vm' & l' & z' & E & H1 & H2 & H3 & H4).
      * apply at_next; exact HA.
      * eapply up_next; exact HA.
      * exact HT'.
      * lia.
      * rewrite Nat2Z.inj_succ, Z.pow_succ_r in HF by lia. apply Z.div_lt_upper_bound; lia.
      * do 6 eexists. split; [exact E|]. split; [exact H1|]. split; [exact H2|]. split; [exact H3|lia].
    + do 6 eexists. split; [reflexivity|]. split; [exact HA|]. split; [exact HU|]. split; [exact HT|lia].
Qed.

(** an exact lower bound may itself be printed *)
Lemma finish_exact k vr vp vm : at_k k vr vp vm -> tz_ok k true -> N < 4 * 10 ^ k * D ->
  forall up, up_ok k up -> good (vr + (if ((vr =? vm) && (negb accept || negb true)) || up then 1 else 0)) k.
Proof.
  intros (Hk & -> & -> & ->) HT HW up HU. pose proof order as (O1 & O2 & O3). pose proof (pow_pos k Hk) as HR.
  destruct (HT eq_refl) as (Ha & Hdv & Hz).
  destruct (split_at Vr k Hk) as [Sr Br]. destruct (split_at Vm k Hk) as [Sm Bm]. destruct (split_at Vp k Hk) as [Sp Bp].
  assert (Hle1 : Vm / 10 ^ k <= Vr / 10 ^ k) by (apply Z.div_le_mono; lia).
  assert (Hle2 : Vr / 10 ^ k <= Vp / 10 ^ k) by (apply Z.div_le_mono; lia).
  assert (H0 : 0 < Vm / 10 ^ k).
  { destruct (Z.lt_ge_cases 0 (Vm / 10 ^ k)); [assumption|]. 
    assert (0 <= Vm / 10 ^ k) by (apply Z.div_pos; lia). assert (Vm / 10 ^ k = 0) by lia. rewrite H1 in Sm. lia. }
  assert (RU : up = true -> Vr / 10 ^ k + 1 <= Vp / 10 ^ k).
  { intros Hu. destruct (HU Hu) as [Hk1 Hh]. apply round_up; [exact Hk|exact Hh|]. right. auto. }
  assert (K0 : k = 0 -> up = false /\ Vr / 10 ^ k = Vr).
  { intros ->. change (10 ^ 0) with 1. rewrite !Z.div_1_r. destruct up; [destruct (HU eq_refl); lia|auto]. }
  rewrite Ha. cbn [negb orb]. rewrite andb_false_r. cbn [orb].
  set (o := Vr / 10 ^ k + (if up then 1 else 0)).
  assert (Ho : Vm / 10 ^ k <= o <= Vp / 10 ^ k).
  { unfold o. destruct up; [specialize (RU eq_refl)|]; lia. }
  assert (Hk0 : k = 0 -> o = Vr).
  { intros E. destruct (K0 E) as (-> & E1). unfold o. rewrite E1. lia. }
  clearbody o. set (R := 10 ^ k) in *.
  assert (L1 : R * (Vm / R) <= R * o) by (apply Z.mul_le_mono_nonneg_l; lia).
  assert (L2 : R * o <= R * (Vp / R)) by (apply Z.mul_le_mono_nonneg_l; lia).
  split; [exact Hk|]. split; [lia|]. split.
  { assert (Em : mm * N = D * Vm) by (destruct Hdv as [z Hz']; rewrite HVm, Hz', Z.div_mul by lia; ring).
    assert (D * Vm <= D * (R * o)) by (apply Z.mul_le_mono_nonneg_l; lia). fold R.
    destruct (Z.eq_dec (mm * N) (o * R * D)); [right; auto|left; lia]. }
  split; [fold R; lia|]. split; [exact Hk0|exact HW].
Qed.

Lemma general_ok vmz vrz : tz_ok 0 vmz -> exists o r, general accept Vr Vp Vm vmz vrz = Ok (o, r) /\ good o r.
Proof.
  intros HT. pose proof order as (O1 & O2 & O3). unfold general.
  assert (A0 : at_k 0 Vr Vp Vm) by (unfold at_k; change (10 ^ 0) with 1; rewrite !Z.div_1_r; repeat split; lia).
  destruct (gen1_ok 39 0 Vr Vp Vm 0 vmz vrz A0 ltac:(lia) ltac:(discriminate) HT fuel40)
    as (k & vr & vp & vm & last & vmz' & vrz' & E & HA & HL & HU & HT' & HW).
  rewrite E. cbn [bind].
  assert (Tw : forall k vrz last vr, up_ok k (5 <=? last) ->
     up_ok k (5 <=? (if vrz && (last =? 5) && (vr mod 2 =? 0) then 4 else last))).
  { intros k0 z l v H. destruct (z && (l =? 5) && (v mod 2 =? 0)); [discriminate|exact H]. }
  destruct vmz'.
  - assert (Pv : 0 < vm).
    { destruct HA as (Hk & _ & _ & ->). destruct (HT' eq_refl) as (_ & _ & Hz). destruct (split_at Vm k Hk) as [Sm Bm].
      pose proof (pow_pos k Hk). assert (0 <= Vm / 10 ^ k) by (apply Z.div_pos; lia).
      destruct (Z.eq_dec (Vm / 10 ^ k) 0) as [E0|]; [|lia]. rewrite E0 in Sm. lia. }
    destruct (gen2_ok 39 k vr vp vm last vrz' HA HU HT' Pv) as (k2 & vr2 & vp2 & vm2 & l2 & z2 & E2 & HA2 & HU2 & HT2 & HK).
    { destruct HA as (Hk & _ & _ & ->). pose proof (pow_pos k Hk). pose proof fuel40.
      apply Z.div_lt_upper_bound; [lia|]. assert (1 * 10 ^ Z.of_nat 39 <= 10 ^ k * 10 ^ Z.of_nat 39); [|lia].
      apply Z.mul_le_mono_nonneg_r; lia. }
    rewrite E2. cbn [bind]. do 2 eexists. split; [reflexivity|].
    apply (finish_exact k2 vr2 vp2 vm2); [exact HA2|exact HT2|apply (width_more k k2); [destruct HA; lia|exact HW]|apply Tw; exact HU2].
  - cbn [bind]. do 2 eexists. split; [reflexivity|].
    replace (negb accept || negb false) with true by (destruct accept; reflexivity). rewrite andb_true_r.
    apply (finish k vr vp vm); [exact HA|exact HL|exact HW|apply Tw; exact HU].
Qed.
End Remove.
