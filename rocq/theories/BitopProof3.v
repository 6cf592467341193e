From Coq Require Znumtheory.
From Verif Require Import Base BitLemmas BitsModel BitsSpec BitsProof BitsProof2 SqueezeModel WidenModel WidenProof BitopModel BitopSpec BitopProof BitopProof2.

Lemma spread_ok ow v : 0 < ow -> 0 <= v < 2^64 ->
  forall fuel j wv, 0 <= j <= 6 -> 6 <= j + Z.of_nat fuel -> (ow | 2^j) ->
  (forall p, 0 <= p < 2^j -> Z.testbit wv p = Z.testbit v (p mod ow)) -> (forall p, 2^j <= p -> Z.testbit wv p = false) ->
  exists w, spread fuel (2^j) wv = Ok w /\ 0 <= w < 2^64 /\ forall p, 0 <= p < 64 -> Z.testbit w p = Z.testbit v (p mod ow).
Proof.
  intros Ho Hv. induction fuel as [|k IH]; intros j wv Hj Hf Hd H1 H2; cbn [spread].
  - replace j with 6 in * by lia. change (2^6) with 64 in *. cbn [Z.ltb]. exists wv. split; [reflexivity|]. split; [|exact H1]. apply bits_range; [lia|exact H2].
  - assert (J64 : 2^j <= 2^6) by (apply Z.pow_le_mono_r; lia). change (2^6) with 64 in J64. assert (J0 : 0 < 2^j) by (apply Z.pow_pos_nonneg; lia).
    destruct (Z.ltb_spec (2^j) 64) as [L|G].
    + assert (Hj6 : j < 6) by (apply (Z.pow_lt_mono_r_iff 2); [lia|lia|exact L]).
      assert (E2 : 2^j * 2 = 2^(j+1)) by (rewrite Z.pow_add_r by lia; lia).
      assert (J1 : 2^(j+1) <= 2^6) by (apply Z.pow_le_mono_r; lia). change (2^6) with 64 in J1.
      rewrite E2. destruct (IH (j+1) (Z.lor wv (shl wv (2^j)))) as [w [A [B C]]]; [lia|lia| | | |exists w; auto].
      * rewrite <- E2. apply Z.divide_mul_l. exact Hd.
      * intros p Hp. rewrite Z.lor_spec, tb_shl by lia. destruct (Z.ltb_spec p 64); [|lia]. rewrite andb_true_r. destruct (Z.lt_ge_cases p (2^j)) as [Lp|Gp].
        -- rewrite (Z.testbit_neg_r wv (p - 2^j)), orb_false_r by lia. apply H1. lia.
        -- rewrite H2 by lia. cbn [orb]. rewrite H1 by lia. f_equal. destruct Hd as [q Eq]. rewrite Eq. replace (p - q * ow) with (p + (-q) * ow) by lia. apply Z.mod_add. lia.
      * intros p Hp. rewrite Z.lor_spec, tb_shl, H2 by lia. cbn [orb]. rewrite H2 by lia. reflexivity.
    + replace (2^j) with 64 in * by lia. exists wv. split; [reflexivity|]. split; [|exact H1]. apply bits_range; [lia|exact H2].
Qed.
Lemma spread_run ow w0 : pow2 ow -> ow <= 64 -> 0 <= w0 < 2^64 ->
  exists w, spread 6 ow (Z.land w0 (Z.shiftr (Z.ones 64) (64 - ow))) = Ok w /\ 0 <= w < 2^64 /\ forall p, 0 <= p < 64 -> Z.testbit w p = Z.testbit w0 (p mod ow).
Proof.
  intros [j [Hj E]] Hl Hw. rewrite E in *. assert (J0 : 0 < 2^j) by (apply Z.pow_pos_nonneg; lia). apply spread_ok; auto; try lia.
  - split; [lia|]. apply (Z.pow_le_mono_r_iff 2); [lia|lia|exact Hl].
  - apply Z.divide_refl.
  - intros p Hp. rewrite Z.land_spec, Z.shiftr_spec, tb_ones, (Z.mod_small p) by lia. destruct (Z.ltb_spec (p + (64 - 2^j)) 64); [|lia]. apply andb_true_r.
  - intros p Hp. rewrite Z.land_spec, Z.shiftr_spec, tb_ones by lia. destruct (Z.ltb_spec (p + (64 - 2^j)) 64); [lia|]. apply andb_false_r.
Qed.

Lemma to_s_mod W a : 0 < W -> (to_s W a) mod 2^W = a mod 2^W.
Proof.
  intros HW. unfold to_s. assert (0 < 2^W) by (apply Z.pow_pos_nonneg; lia).
  rewrite Zminus_mod_idemp_l. f_equal. lia.
Qed.
Definition bop (op : op2) (a b : bool) : bool := match op with And_ => a && b | Or_ => a || b | _ => xorb a b end.
Definition aop (op : op2) (a b : Z) : Z := match op with Add_ => a + b | Sub_ => a - b | _ => a * b end.
Lemma to_s_signed W v : 0 < W -> 0 <= v < 2^W -> to_s W v = signed W v.
Proof.
  intros HW Hv. unfold to_s, signed. assert (E : 2^W = 2 * 2^(W-1)) by (rewrite <- Z.pow_succ_r by lia; f_equal; lia). destruct (Z.ltb_spec v (2^(W-1))).
  - rewrite Z.mod_small by lia. lia.
  - replace (v + 2^(W-1)) with (v - 2^(W-1) + 1 * 2^W) by lia. rewrite Z.mod_add, Z.mod_small by lia. lia.
Qed.
Lemma arith_ok op W a b : 0 < W -> 0 <= a < 2^W -> 0 <= b < 2^W -> is_bitwise op = false -> (op = Mul_ -> 32 <= W -> prod_fits W a b) -> exists v, arith op W a b = Ok v /\ v mod 2^W = (aop op a b) mod 2^W.
Proof.
  intros HW Ra Rb HB HM. destruct op; try discriminate HB; cbn [arith aop]; try (eexists; split; reflexivity).
  specialize (HM eq_refl). unfold prod_fits in HM. rewrite <- !to_s_signed in HM by lia.
  assert (E : (to_s W a * to_s W b) mod 2^W = (a * b) mod 2^W).
  { rewrite Z.mul_mod, !to_s_mod, <- Z.mul_mod; [reflexivity| | |lia|]; try apply Z.pow_nonzero; lia. }
  destruct (Z.leb_spec 32 W) as [L|G]; cbn [andb]; [|eexists; split; [reflexivity|exact E]].
  specialize (HM L). destruct (Z.leb_spec (-2^(W-1)) (to_s W a * to_s W b)); [|lia]. destruct (Z.ltb_spec (to_s W a * to_s W b) (2^(W-1))); [|lia]. cbn [andb negb]. eexists; split; [reflexivity|exact E].
Qed.
Lemma bitwise_bits op a b i : Z.testbit (bitwise op a b) i = bop op (Z.testbit a i) (Z.testbit b i).
Proof. destruct op; cbn [bitwise bop]; first [apply Z.land_spec|apply Z.lor_spec|apply Z.lxor_spec]. Qed.
Lemma bitwise_range op a b : 0 <= a < 2^64 -> 0 <= b < 2^64 -> 0 <= bitwise op a b < 2^64.
Proof. intros. destruct op; cbn [bitwise]; auto using land_range, lor_range, lxor_range. Qed.

(** the value of the extended argument *)
Definition wval (noext neg : bool) (ow : Z) (m : list Z) (i : Z) : Z :=
  if noext then field ow m i else if neg then (- field ow m 0) mod 2^ow else field ow m 0.
Definition opw_run (op : op2) (noext : bool) (ow : Z) : Prop := if is_bitwise op then noext = false -> ow <= 64 else lanew ow.
Definition binary (op : op2) (noext neg : bool) (ow n : Z) (w x r : list Z) : Prop :=
  if is_bitwise op then forall p, 0 <= p < n -> bitat r p = bop op (bitat w (if noext then p else p mod ow)) (bitat x p)
  else forall i, 0 <= i < n / ow -> field ow r i = (aop op (wval noext neg ow w i) (field ow x i)) mod 2^ow.

Lemma field0_land m ow : words m -> 0 < len m -> 0 <= ow <= 64 -> Z.land (word m 0) (Z.ones ow) = field ow m 0.
Proof.
  intros Hw Hl Ho. rewrite Z.land_ones by lia. symmetry. apply field_eq; auto; try lia. intros b Hb. rewrite mbit_split. replace ((0*ow+b)/64) with 0 by lia. replace ((0 * ow + b) mod 64) with b by lia. reflexivity.
Qed.

Lemma ext_bit m ow p : pow2 ow -> ow <= 64 -> 0 <= p -> mbit m (p mod ow) = Z.testbit (word m 0) ((p mod 64) mod ow).
Proof.
  intros P H Hp. pose proof (pow2_pos _ P) as Ho. pose proof (Z.mod_pos_bound p ow ltac:(lia)) as Mb. rewrite mbit_split.
  rewrite (Z.div_small (p mod ow)) by lia. rewrite (Z.mod_small (p mod ow) 64) by lia. f_equal. apply Znumtheory.Zmod_div_mod; [lia|lia|].
  destruct P as [j [Hj ->]]. assert (J6 : j <= 6) by (apply (Z.pow_le_mono_r_iff 2); [lia|lia|exact H]).
  exists (2^(6-j)). rewrite <- Z.pow_add_r by lia. replace (6 - j + j) with 6 by lia. reflexivity.
Qed.
Lemma rd_in m i n : 0 <= i -> 64 * i < n -> n <= 64 * len m -> rdz m i = Ok (word m i).
Proof. intros. apply rdz_ok. lia. Qed.
Lemma div_in n ow i : 0 < ow -> (ow | n) -> 0 <= i < n / ow -> 0 <= i * ow /\ i * ow + ow <= n.
Proof. intros Ho [q ->] H. rewrite Z.div_mul in H by lia. nia. Qed.
Lemma div_mul_le n ow : 0 < ow -> n / ow * ow <= n.
Proof. intros. pose proof (Z.mul_div_le n ow). lia. Qed.

Lemma run_ok op noext neg ow rw xw ww junk w x : pow2 ow -> pow2 rw -> pow2 xw -> wf xw x -> total xw x < 2^32 -> b_sh x <> [] -> words (b_mem w) ->
  (noext = true -> total xw x <= 64 * len (b_mem w)) -> (noext = false -> 0 < len (b_mem w)) -> (neg = true -> is_bitwise op = false) ->
  let t := last (b_sh x) 0 * xw in
  let go := bitop2_run op noext neg ow rw xw ww junk w x t in
  (fitting ow rw xw (b_sh x) -> width ww -> opw_run op noext ow ->
   (op = Mul_ -> 32 <= ow -> forall i, 0 <= i < total xw x / ow -> prod_fits ow (wval noext neg ow (b_mem w) i) (field ow (b_mem x) i)) ->
   exists r, go = Ok r /\ sound rw r /\ b_sh r = reshaped (b_sh x) xw rw /\ binary op noext neg ow (total xw x) (b_mem w) (b_mem x) (b_mem r)) /\
  (~ (fitting ow rw xw (b_sh x) /\ width ww /\ opw_run op noext ow) -> go = Err).
Proof.
  intros Po Pr Px Hwf Ht Nn Ww HL1 HL2 Hng t go.
  pose proof (pow2_pos _ Po) as Ho. pose proof (pow2_pos _ Pr) as Hr. pose proof (pow2_pos _ Px) as Hx.
  destruct (wf_size _ _ Hwf) as [S0 [S1 [Wm [Sm Fs]]]]. unfold total in *. subst go. unfold bitop2_run.
  rewrite !(pow2_shl xw) by auto. set (n := to_u 32 (b_ia x * xw)).
  assert (En : n = size (b_sh x) * xw) by (unfold n, to_u; rewrite S1; apply Z.mod_small; split; [apply Z.mul_nonneg_nonneg; lia|exact Ht]).
  assert (Hn0 : 0 <= n) by (rewrite En; apply Z.mul_nonneg_nonneg; lia).
  match goal with |- context [if _ || _ then Err else if _ then Err else ?kk] => set (k := kk) end.
  destruct (checks_ok ow rw t k Po Pr) as [C1 C2].
  assert (W0 : exists w0, (noext = false -> (if neg then do v <- rdz (b_mem w) 0; Ok (w64 (- v)) else rdz (b_mem w) 0) = Ok w0) /\ 0 <= w0 < 2^64 /\ (neg = false -> w0 = word (b_mem w) 0) /\ (neg = true -> w0 = w64 (- word (b_mem w) 0))).
  { exists (if neg then w64 (- word (b_mem w) 0) else word (b_mem w) 0). split.
    - intros NE. rewrite rdz_ok by (specialize (HL2 NE); lia). destruct neg; reflexivity.
    - split; [destruct neg; [apply w64_range|apply word_range; auto]|]. split; intros ->; reflexivity. }
  destruct W0 as [w0 [R0 [R1 [R2 R3]]]].
  assert (KE : ~ (width xw /\ width rw /\ width ww /\ opw_run op noext ow) -> k = Err).
  { intros NN. unfold k. destruct (data_width_ok ww) as [[-> W1]|[-> W1]]; cbn [bind]; [|reflexivity]. destruct (data_width_ok xw) as [[-> W2]|[-> W2]]; cbn [bind]; [|reflexivity].
    destruct (data_width_ok rw) as [[-> W3]|[-> W3]]; cbn [bind]; [|reflexivity]. unfold opw_run in NN.
    assert (NL : lane_ok ow = true -> ~ ~ lanew ow) by (intros EL NL; apply NL, lane_ok_iff; exact EL).
    destruct noext.
    - destruct (is_bitwise op); [exfalso; apply NN; repeat split; auto; discriminate|]. destruct (lane_ok ow); [tauto|reflexivity].
    - rewrite R0 by reflexivity. cbn [bind]. destruct (is_bitwise op).
      + destruct (Z.ltb_spec 64 ow); [reflexivity|]. exfalso. apply NN. repeat split; auto.
      + destruct (lane_ok ow); [tauto|reflexivity]. }
  assert (DEC : (ow | t) /\ (rw | t) /\ t / rw < 2^32 - 1 \/ ~ ((ow | t) /\ (rw | t) /\ t / rw < 2^32 - 1)).
  { destruct (Znumtheory.Zdivide_dec ow t), (Znumtheory.Zdivide_dec rw t), (Z_lt_dec (t/rw) (2^32-1)); tauto. }
  split.
  - intros [_ [D1 [D2 [D3 [D4 D5]]]]] D6 HO HM. fold t in D1, D2, D3. rewrite C1 by auto. unfold k.
    destruct (data_width_ok ww) as [[-> W1]|[_ W1]]; [|contradiction]. destruct (data_width_ok xw) as [[-> W2]|[_ W2]]; [|contradiction]. destruct (data_width_ok rw) as [[-> W3]|[_ W3]]; [|contradiction]. cbn [bind].
    rewrite pow2_shr by auto. destruct (alloc_ok junk n Hn0) as [AW AL]. set (r0 := alloc junk n) in *. assert (Ln : n <= 64 * len r0) by lia.
    assert (FIN : forall r, len r = len r0 -> sound rw (set_bit_result r (b_sh x) (t / rw)) /\ b_sh (set_bit_result r (b_sh x) (t / rw)) = reshaped (b_sh x) xw rw /\ b_mem (set_bit_result r (b_sh x) (t / rw)) = r).
    { intros r Lr. destruct (set_bit_sound r (b_sh x) xw rw Nn Fs) as [A1 [A2 [A3 _]]]; auto; try lia. unfold len in *; lia. }
    pose proof (size_div (b_sh x) ow xw Nn D1) as [q Eq]. assert (Eq2 : n / ow = q) by (rewrite En, Eq; apply Z.div_mul; lia).
    assert (LANE : lanew ow -> is_bitwise op = false -> forall g, (forall i r, 0 <= i < n / ow -> exists v, g i r = Ok v /\ v mod 2^ow = (aop op (wval noext neg ow (b_mem w) i) (field ow (b_mem x) i)) mod 2^ow) ->
      exists r, laneloop ow n g r0 = Ok r /\ len r = len r0 /\ forall i, 0 <= i < n / ow -> field ow r i = (aop op (wval noext neg ow (b_mem w) i) (field ow (b_mem x) i)) mod 2^ow).
    { intros HLn HB g Hg. destruct (laneloop_ok ow n g r0 (fun i => (aop op (wval noext neg ow (b_mem w) i) (field ow (b_mem x) i)) mod 2^ow)) as [r [E1 [E2 [E3 E4]]]]; [exact HLn|exact AW|eapply Z.le_trans; [apply div_mul_le; apply Ho|exact Ln]|exact Hn0| |exists r; auto].
      intros i r Hi _ _ _. apply Hg. exact Hi. }
    assert (AR : is_bitwise op = false -> forall i, 0 <= i < n / ow -> exists v, arith op ow (wval noext neg ow (b_mem w) i) (field ow (b_mem x) i) = Ok v /\ v mod 2^ow = (aop op (wval noext neg ow (b_mem w) i) (field ow (b_mem x) i)) mod 2^ow).
    { intros HB i Hi. apply arith_ok; [lia|unfold wval; destruct noext; [apply field_range; lia|destruct neg; [apply Z.mod_pos_bound, Z.pow_pos_nonneg; lia|apply field_range; lia]]|apply field_range; lia|exact HB|]. intros E1 E2. apply HM; auto. rewrite <- En. exact Hi. }
    unfold opw_run in HO. unfold binary. destruct (is_bitwise op) eqn:HB.
    + assert (Hneg : neg = false) by (destruct neg; [specialize (Hng eq_refl); discriminate|reflexivity]).
      destruct noext.
      * specialize (HL1 eq_refl).
        destruct (wordloop_ok n (fun i _ => do a <- rdz (b_mem w) i; do b <- rdz (b_mem x) i; Ok (bitwise op a b)) r0 (fun i => bitwise op (word (b_mem w) i) (word (b_mem x) i)) AW Ln Hn0) as [r [E1 [E2 [E3 E4]]]].
        { intros i r Hi Hin Lr Wr Hj. split; [|apply bitwise_range; apply word_range; auto]. rewrite !(rd_in _ i n) by (auto; rewrite En; auto). reflexivity. }
        rewrite E1. cbn [bind]. destruct (FIN r E2) as [A1 [A2 A3]]. eexists. split; [reflexivity|]. split; [exact A1|]. split; [exact A2|]. rewrite A3. intros p Hp.
        rewrite !bitat_mbit by (auto; apply Hp). rewrite E4 by (rewrite En; exact Hp). rewrite bitwise_bits, (mbit_split (b_mem w)), (mbit_split (b_mem x)). reflexivity.
      * rewrite R0 by reflexivity. cbn [bind]. specialize (HO eq_refl). specialize (R2 Hneg). specialize (HL2 eq_refl).
        destruct (Z.ltb_spec 64 ow); [lia|]. destruct (spread_run ow w0 Po HO R1) as [wv [Es [Rs Bs]]]. rewrite Es. cbn [bind].
        destruct (wordloop_ok n (fun i _ => do b <- rdz (b_mem x) i; Ok (bitwise op wv b)) r0 (fun i => bitwise op wv (word (b_mem x) i)) AW Ln Hn0) as [r [E1 [E2 [E3 E4]]]].
        { intros i r Hi Hin Lr Wr Hj. split; [|apply bitwise_range; auto; apply word_range; auto]. rewrite !(rd_in _ i n) by (auto; rewrite En; auto). reflexivity. }
        rewrite E1. cbn [bind]. destruct (FIN r E2) as [A1 [A2 A3]]. eexists. split; [reflexivity|]. split; [exact A1|]. split; [exact A2|]. rewrite A3. intros p Hp.
        assert (Mb : 0 <= p mod ow) by (apply Z.mod_pos_bound; apply pow2_pos; exact Po). assert (Pn : 0 <= p < n) by (rewrite En; exact Hp).
        rewrite !bitat_mbit by (auto; apply Hp). rewrite E4 by exact Pn. rewrite bitwise_bits, (mbit_split (b_mem x)). f_equal. rewrite Bs by (apply Z.mod_pos_bound; reflexivity). rewrite R2.
        symmetry. apply ext_bit; [exact Po|exact HO|apply Hp].
    + specialize (LANE HO eq_refl). specialize (AR eq_refl). destruct noext.
      * specialize (HL1 eq_refl). rewrite (proj2 (lane_ok_iff ow) HO).
        destruct (LANE (fun i _ => do a <- ldbits (b_mem w) (i * ow) ow; do b <- ldbits (b_mem x) (i * ow) ow; arith op ow a b)) as [r [E1 [E2 E3]]].
        { intros i r Hi. destruct (div_in n ow i) as [V1 V2]; [apply Ho|exists q; rewrite En; exact Eq|exact Hi|]. rewrite !ldbits_field by lia. cbn [bind]. apply (AR i Hi). }
        rewrite E1. cbn [bind]. destruct (FIN r E2) as [A1 [A2 A3]]. eexists. split; [reflexivity|]. split; [exact A1|]. split; [exact A2|]. rewrite A3. intros i Hi. apply E3. rewrite En. exact Hi.
      * rewrite R0 by reflexivity. cbn [bind]. rewrite (proj2 (lane_ok_iff ow) HO). specialize (HL2 eq_refl).
        assert (Ho64 : 0 <= ow <= 64) by (destruct HO as [->|[->|[->| ->]]]; lia).
        assert (EW : Z.land w0 (Z.ones ow) = wval false neg ow (b_mem w) 0).
        { unfold wval. destruct neg.
          - rewrite R3 by reflexivity. unfold w64. rewrite <- Z.land_assoc. replace (Z.land (Z.ones 64) (Z.ones ow)) with (Z.ones ow).
            + rewrite Z.land_ones by lia. rewrite <- (field0_land (b_mem w) ow Ww HL2 Ho64), Z.land_ones by lia.
              rewrite <- (Z.sub_0_l (word (b_mem w) 0)), <- (Z.sub_0_l (_ mod _)). rewrite Zminus_mod_idemp_r. reflexivity.
            + apply Z.bits_inj'. intros b Hb. rewrite Z.land_spec, !tb_ones by lia. destruct (Z.ltb_spec b 64), (Z.ltb_spec b ow); try reflexivity; lia.
          - rewrite R2 by reflexivity. apply field0_land; auto. }
        rewrite EW.
        destruct (LANE (fun i _ => do b <- ldbits (b_mem x) (i * ow) ow; arith op ow (wval false neg ow (b_mem w) 0) b)) as [r [E1 [E2 E3]]].
        { intros i r Hi. destruct (div_in n ow i) as [V1 V2]; [apply Ho|exists q; rewrite En; exact Eq|exact Hi|]. rewrite !ldbits_field by lia. cbn [bind]. apply (AR i Hi). }
        rewrite E1. cbn [bind]. destruct (FIN r E2) as [A1 [A2 A3]]. eexists. split; [reflexivity|]. split; [exact A1|]. split; [exact A2|]. rewrite A3. intros i Hi. apply E3. rewrite En. exact Hi.
  - intros NF. destruct DEC as [D|D]; [|apply C2; exact D]. rewrite C1 by exact D. apply KE. intros [K1 [K2 [K3 K4]]]. apply NF. unfold fitting. fold t. tauto.
Qed.
