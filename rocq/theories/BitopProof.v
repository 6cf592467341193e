From Verif Require Import Base BitLemmas BitsModel BitsSpec BitsProof BitsProof2 SqueezeModel WidenModel WidenProof BitopModel BitopSpec.

Lemma bitat_mbit m p : words m -> 0 <= p -> bitat m p = mbit m p.
Proof. intros Hw Hp. unfold bitat. rewrite <- Z.shiftr_div_pow2, <- Z.testbit_odd by lia. apply memZ_bits; auto. Qed.
Lemma field_range W m i : 0 <= W -> 0 <= field W m i < 2^W.
Proof. intros H. unfold field. apply Z.mod_pos_bound. apply Z.pow_pos_nonneg; lia. Qed.
Lemma field_bits W m i b : words m -> 0 <= i -> 0 <= b < W -> Z.testbit (field W m i) b = mbit m (i * W + b).
Proof.
  intros Hw Hi Hb. unfold field. rewrite Z.mod_pow2_bits_low by lia. rewrite Z.div_pow2_bits by nia. rewrite memZ_bits by (auto; nia). f_equal. lia.
Qed.
Lemma ldbits_field W m i : 0 <= W -> 0 <= i -> i * W + W <= 64 * len m -> ldbits m (i * W) W = Ok (field W m i).
Proof.
  intros HW Hi Hl. unfold ldbits, len in *. destruct (Z.ltb_spec (i * W) 0); [nia|]. destruct (Z.ltb_spec (64 * Z.of_nat (length m)) (i*W+W)); [lia|]. cbn [orb].
  unfold field. rewrite Z.land_ones, Z.shiftr_div_pow2 by nia. rewrite (Z.mul_comm W i). reflexivity.
Qed.
Lemma field_eq W m i v : words m -> 0 <= i -> 0 <= W -> (forall b, 0 <= b < W -> mbit m (i * W + b) = Z.testbit v b) -> field W m i = v mod 2^W.
Proof.
  intros Hw Hi HW H. apply Z.bits_inj'. intros b Hb. destruct (Z.lt_ge_cases b W) as [L|G].
  - rewrite field_bits by (auto; lia). rewrite H by lia. rewrite Z.mod_pow2_bits_low by lia. reflexivity.
  - rewrite Z.mod_pow2_bits_high by lia. apply (range_bits _ W); [apply field_range; lia|lia|lia].
Qed.

Lemma laneloop_ok W n f r0 (F : Z -> Z) : cellw W -> words r0 -> n / W * W <= 64 * len r0 -> 0 <= n ->
  (forall i r, 0 <= i < n / W -> len r = len r0 -> words r -> (forall k, i * W <= k -> mbit r k = mbit r0 k) -> exists v, f i r = Ok v /\ v mod 2^W = F i) ->
  exists r, laneloop W n f r0 = Ok r /\ len r = len r0 /\ words r /\ forall i, 0 <= i < n / W -> field W r i = F i.
Proof.
  intros HW Hw Hl Hn Hf. assert (W0 : 0 < W) by (destruct HW as [->|[->|[->| ->]]]; lia).
  assert (G : forall c i r, 0 <= i -> i + Z.of_nat c = n / W -> len r = len r0 -> words r -> (forall k, i * W <= k -> mbit r k = mbit r0 k) ->
    exists r', for_ c i (fun i r => do v <- f i r; stbits r (i * W) W v) r = Ok r' /\ len r' = len r0 /\ words r' /\
      (forall j b, i <= j < n / W -> 0 <= b < W -> mbit r' (j * W + b) = Z.testbit (F j) b) /\ (forall k, 0 <= k < i * W -> mbit r' k = mbit r k)).
  { induction c as [|c IH]; intros i r Hi Hc Hlr Hwr Hk; cbn [for_].
    - exists r. split; [reflexivity|]. split; [exact Hlr|]. split; [exact Hwr|]. split; [intros; lia|auto].
    - destruct (Hf i r) as [v [Ev HF]]; [lia|exact Hlr|exact Hwr|exact Hk|]. rewrite Ev. cbn [bind].
      destruct (stbits_spec r (i * W) W v) as [r1 [E1 [L1 [W1 H1]]]]; [exact Hwr|nia|exact HW|rewrite Z.mod_mul; lia|nia|]. rewrite E1. cbn [bind].
      destruct (IH (i+1) r1) as [r2 [E2 [L2 [W2 [H2 H3]]]]]; [lia|lia|lia|exact W1| |].
      { intros k Hk1. rewrite H1 by nia. destruct (Z.leb_spec (i*W) k), (Z.ltb_spec k (i*W+W)); cbn [andb]; try (apply Hk; nia). nia. }
      exists r2. split; [exact E2|]. split; [exact L2|]. split; [exact W2|]. split.
      + intros j b Hj Hb. destruct (Z.eq_dec j i) as [->|N0].
        * rewrite H3 by nia. rewrite H1 by nia. destruct (Z.leb_spec (i*W) (i*W+b)), (Z.ltb_spec (i*W+b) (i*W+W)); try lia. cbn [andb].
          rewrite <- HF, Z.mod_pow2_bits_low by lia. f_equal. lia.
        * apply H2; lia.
      + intros k Hkk. rewrite H3 by nia. rewrite H1 by nia. destruct (Z.leb_spec (i*W) k); cbn [andb]; [nia|reflexivity]. }
  destruct (G (Z.to_nat (n/W)) 0 r0) as [r [E [L [Wr [H1 _]]]]]; [lia|pose proof (Z.div_pos n W Hn W0); lia|reflexivity|exact Hw|auto|].
  exists r. split; [exact E|]. split; [exact L|]. split; [exact Wr|]. intros i Hi.
  destruct (Hf i r0) as [v [_ HF]]; [lia|reflexivity|exact Hw|auto|].
  rewrite (field_eq W r i (F i)); [|exact Wr|lia|lia|intros; apply H1; lia]. rewrite <- HF. apply Z.mod_mod. apply Z.pow_nonzero; lia.
Qed.

Lemma wordloop_ok n f r0 (F : Z -> Z) : words r0 -> n <= 64 * len r0 -> 0 <= n ->
  (forall i r, 0 <= i -> 64 * i < n -> len r = len r0 -> words r -> (forall j, i <= j -> word r j = word r0 j) -> f i r = Ok (F i) /\ 0 <= F i < 2^64) ->
  exists r, wordloop n f r0 = Ok r /\ len r = len r0 /\ words r /\ forall p, 0 <= p < n -> mbit r p = Z.testbit (F (p / 64)) (p mod 64).
Proof.
  intros Hw Hl Hn Hf.
  assert (G : forall c i r, 0 <= i -> i + Z.of_nat c = n / 64 -> len r = len r0 -> words r -> (forall j, i <= j -> word r j = word r0 j) ->
    exists r', for_ c i (fun i r => do v <- f i r; wrz r i v) r = Ok r' /\ len r' = len r0 /\ words r' /\
      (forall j, i <= j < n / 64 -> word r' j = F j) /\ (forall j, 0 <= j < i \/ n / 64 <= j -> word r' j = word r j)).
  { induction c as [|c IH]; intros i r Hi Hc Hlr Hwr Hk; cbn [for_].
    - exists r. split; [reflexivity|]. split; [exact Hlr|]. split; [exact Hwr|]. split; [intros; lia|auto].
    - destruct (Hf i r) as [Ev HF]; [lia|lia|exact Hlr|exact Hwr|exact Hk|]. rewrite Ev. cbn [bind]. rewrite wrz_ok by lia. cbn [bind].
      destruct (IH (i+1) (upd r (Z.to_nat i) (F i))) as [r2 [E2 [L2 [W2 [H2 H3]]]]]; [lia|lia|rewrite len_upd; exact Hlr|apply words_upd; auto| |].
      { intros j Hj. rewrite word_upd by lia. destruct (Z.eqb_spec j i); [lia|]. apply Hk. lia. }
      exists r2. split; [exact E2|]. split; [exact L2|]. split; [exact W2|]. split.
      + intros j Hj. destruct (Z.eq_dec j i) as [->|N0]; [|apply H2; lia]. rewrite H3 by lia. rewrite word_upd by lia. rewrite Z.eqb_refl. reflexivity.
      + intros j Hj. rewrite H3 by lia. rewrite word_upd by lia. destruct (Z.eqb_spec j i); [lia|reflexivity]. }
  unfold wordloop. destruct (G (Z.to_nat (n/64)) 0 r0) as [r [E [L [Wr [H1 H2]]]]]; [lia|lia|reflexivity|exact Hw|auto|]. rewrite E. cbn [bind].
  destruct (Z.eqb_spec ((-n) mod 64) 0) as [Z0|NZ].
  - exists r. split; [reflexivity|]. split; [exact L|]. split; [exact Wr|]. intros p Hp. rewrite mbit_split, H1 by lia. reflexivity.
  - rewrite rdz_ok by lia. cbn [bind]. destruct (Hf (n/64) r) as [Ev HF]; [lia|lia|exact L|exact Wr|intros; apply H2; lia|].
    rewrite Ev. cbn [bind]. rewrite wrz_ok by lia. eexists. split; [reflexivity|]. split; [rewrite len_upd; exact L|]. split.
    + apply words_upd; auto. apply lxor_range; [apply word_range; auto|]. apply land_range. apply bits_range; [lia|]. intros i Hi. rewrite Z.shiftr_spec, tb_ones by lia. apply Z.ltb_ge. lia.
    + intros p Hp. rewrite mbit_upd by lia. destruct (Z.eqb_spec (p/64) (n/64)) as [E1|N1].
      * rewrite E1. rewrite Z.lxor_spec, Z.land_spec, Z.shiftr_spec, tb_ones by lia. destruct (Z.ltb_spec (p mod 64 + (-n) mod 64) 64) as [LL|GG]; [|lia].
        rewrite Z.lxor_spec. cbn [andb]. destruct (Z.testbit (word r (n/64)) (p mod 64)), (Z.testbit (F (n/64)) (p mod 64)); reflexivity.
      * rewrite mbit_split, H1 by lia. reflexivity.
Qed.

(** widths *)
Lemma pow2_land s : 0 < s < 2^32 -> (Z.land s (s - 1) = 0 <-> pow2 s).
Proof.
  intros Hs. pose proof (Z.log2_spec s ltac:(lia)) as [L1 L2]. pose proof (Z.log2_nonneg s) as L0. set (k := Z.log2 s) in *.
  assert (Hk : k < 32) by (apply (Z.pow_lt_mono_r_iff 2); lia). split; intros H.
  - destruct (Z.eq_dec s (2^k)) as [E|N]; [exists k; split; [lia|exact E]|]. exfalso. rewrite Z.pow_succ_r in L2 by lia.
    assert (T : Z.testbit (Z.land s (s-1)) k = true).
    { rewrite Z.land_spec. assert (B : forall v, 2^k <= v < 2 * 2^k -> Z.testbit v k = true).
      { intros v Hv. rewrite Z.testbit_true by lia. replace (v / 2^k) with 1; [reflexivity|]. apply (Z.div_unique v (2^k) 1 (v - 2^k)); lia. }
      rewrite (B s), (B (s-1)) by lia. reflexivity. }
    rewrite H, Z.bits_0 in T. discriminate.
  - destruct H as [j [Hj E]]. rewrite E. replace (2^j - 1) with (Z.ones j) by (rewrite Z.ones_equiv; lia). rewrite Z.land_ones by lia. apply Z.mod_same. apply Z.pow_nonzero; lia.
Qed.
Lemma req2_ok s : 0 <= s < 2^32 -> req2 s = Ok s /\ pow2 s \/ req2 s = Err /\ ~ pow2 s.
Proof.
  intros Hs. unfold req2, to_u. destruct (Z.eq_dec s 0) as [->|N0].
  - right. split; [reflexivity|]. intros [k [Hk E]]. assert (0 < 2^k) by (apply Z.pow_pos_nonneg; lia). lia.
  - rewrite Z.mod_small by lia. pose proof (pow2_land s ltac:(lia)) as HP. rewrite Z.land_lor_distr_l.
    destruct (Z.eqb_spec (Z.lor (Z.land (2^31) (s-1)) (Z.land s (s-1))) 0) as [E|N]; cbn [negb].
    + left. split; [reflexivity|]. apply HP. apply Z.lor_eq_0_iff in E. tauto.
    + right. split; [reflexivity|]. intros P. apply N. apply Z.lor_eq_0_iff. split; [|apply HP; exact P].
      destruct P as [k [Hk E]]. apply Z.bits_inj'. intros i Hi. rewrite Z.bits_0, Z.land_spec, Z.pow2_bits_eqb by lia. destruct (Z.eqb_spec 31 i) as [<-|]; [|reflexivity].
      cbn [andb]. apply (range_bits _ 31); [|lia|lia]. rewrite E. split; [assert (0 < 2^k) by (apply Z.pow_pos_nonneg; lia); lia|].
      assert (2^k <= 2^31) by (apply Z.pow_le_mono_r; lia). lia.
Qed.
Lemma mapM_req2 f : Forall (fun s => 0 <= s < 2^32) f -> mapM req2 f = Ok f /\ Forall pow2 f \/ mapM req2 f = Err /\ ~ Forall pow2 f.
Proof.
  induction 1 as [|s f Hs Hf IH]; cbn [mapM]; [left; auto|]. destruct (req2_ok s Hs) as [[-> P]|[-> P]]; cbn [bind].
  - destruct IH as [[-> Q]|[-> Q]]; cbn [bind]; [left; auto|right]. split; [reflexivity|]. intros A. apply Q. exact (Forall_inv_tail A).
  - right. split; [reflexivity|]. intros A. apply P. exact (Forall_inv A).
Qed.
Lemma widths_ok k f : Forall (fun s => 0 <= s < 2^32) f ->
  (exists t, widths k f = Ok t /\ given k f t) \/ (widths k f = Err /\ forall t, ~ given k f t).
Proof.
  intros Hf. unfold widths. destruct (Nat.ltb_spec (length f) 1) as [L|G]; cbn [orb].
  { right. split; [reflexivity|]. intros t [A _]. lia. }
  destruct (Nat.ltb_spec k (length f)) as [L2|G2]. { right. split; [reflexivity|]. intros t [A _]. lia. }
  destruct (mapM_req2 f Hf) as [[-> P]|[-> P]]; cbn [bind].
  - left. eexists. split; [reflexivity|]. split; [lia|]. split; [exact P|]. split; [rewrite app_length, repeat_length; lia|].
    intros i Hi. destruct (Nat.ltb_spec i (length f)).
    + rewrite app_nth1 by lia. f_equal. lia.
    + rewrite app_nth2 by lia. rewrite (nth_indep _ 0 (last f 0)), nth_repeat by (rewrite repeat_length; lia). replace (Nat.min i (length f - 1)) with (length f - 1)%nat by lia.
      clear -G. induction f as [|a f IH]; cbn [length] in *; [lia|]. destruct f as [|b f]; [reflexivity|]. cbn [length] in *. change (last (a :: b :: f) 0) with (last (b :: f) 0). rewrite IH by lia. cbn [length nth Nat.sub].
      replace (length f - 0)%nat with (length f) by lia. reflexivity.
  - right. split; [reflexivity|]. intros t [_ [A _]]. contradiction.
Qed.
