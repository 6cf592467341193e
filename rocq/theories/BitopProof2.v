From Coq Require Znumtheory.
From Verif Require Import Base BitLemmas BitsModel BitsSpec BitsProof BitsProof2 SqueezeModel WidenModel WidenProof BitopModel BitopSpec BitopProof.

Lemma pow2_pos n : pow2 n -> 0 < n < 2^32.
Proof. intros [k [Hk ->]]. split; [apply Z.pow_pos_nonneg; lia|apply Z.pow_lt_mono_r; lia]. Qed.
Lemma pow2_shl n v : pow2 n -> Z.shiftl v (Z.log2 n) = v * n.
Proof. intros [k [Hk ->]]. rewrite Z.log2_pow2, Z.shiftl_mul_pow2 by lia. reflexivity. Qed.
Lemma pow2_shr n v : pow2 n -> Z.shiftr v (Z.log2 n) = v / n.
Proof. intros [k [Hk ->]]. rewrite Z.log2_pow2, Z.shiftr_div_pow2 by lia. reflexivity. Qed.
Lemma pow2_and n v : pow2 n -> Z.land v (n - 1) = v mod n.
Proof. intros [k [Hk ->]]. replace (2^k - 1) with (Z.ones k) by (rewrite Z.ones_equiv; lia). apply Z.land_ones. lia. Qed.
Lemma given_pow2 k f t i : given k f t -> (i < k)%nat -> pow2 (nth i t 0).
Proof.
  intros [H1 [H2 [H3 H4]]] Hi. rewrite H4 by lia. rewrite Forall_forall in H2. apply H2. apply nth_In. lia.
Qed.
Lemma given_fun k f t t' : given k f t -> given k f t' -> t = t'.
Proof. intros [_ [_ [L H]]] [_ [_ [L' H']]]. apply (nth_ext _ _ 0 0); [lia|]. intros i Hi. rewrite H, H' by lia. reflexivity. Qed.
Lemma given_u32 k f t : given k f t -> Forall (fun s => 0 <= s < 2^32) f.
Proof. intros [_ [H _]]. eapply Forall_impl; [|exact H]. intros a P. apply pow2_pos in P. lia. Qed.
Lemma widths_given k f t : given k f t -> widths k f = Ok t.
Proof.
  intros G. destruct (widths_ok k f (given_u32 _ _ _ G)) as [[t' [E G']]|[_ N]]; [|destruct (N t G)]. rewrite (given_fun _ _ _ _ G G'). exact E.
Qed.

Lemma data_width_ok s : data_width s = Ok tt /\ width s \/ data_width s = Err /\ ~ width s.
Proof.
  unfold data_width, width. destruct (Z.eqb_spec s 1), (Z.eqb_spec s 8), (Z.eqb_spec s 16), (Z.eqb_spec s 32), (Z.eqb_spec s 64); cbn [orb]; try (left; split; [reflexivity|lia]). right. split; [reflexivity|lia].
Qed.
Lemma lane_ok_iff ow : lane_ok ow = true <-> lanew ow.
Proof.
  unfold lane_ok, lanew. destruct (Z.eqb_spec ow 8), (Z.eqb_spec ow 16), (Z.eqb_spec ow 32), (Z.eqb_spec ow 64); cbn [orb]; split; intros; try reflexivity; try lia; discriminate.
Qed.

Lemma size_app a b : size (a ++ b) = size a * size b.
Proof. unfold size. induction a as [|x a IH]; cbn [app fold_right]; [lia|]. rewrite IH. lia. Qed.
Lemma size_nonneg sh : Forall (fun e => 0 <= e < 2^32) sh -> 0 <= size sh.
Proof. unfold size. induction 1; cbn [fold_right]; [lia|nia]. Qed.
Lemma size_split sh : sh <> [] -> size sh = size (removelast sh) * last sh 0.
Proof. intros N. rewrite (app_removelast_last 0 N) at 1. rewrite size_app. unfold size at 2. cbn [fold_right]. lia. Qed.
Lemma shProdU_mod sh : shProdU sh = size sh mod 2^32.
Proof.
  unfold shProdU, size, to_u. assert (G : forall l p, fold_left (fun p e => (p * e) mod 2^32) l (p mod 2^32) = (p * fold_right Z.mul 1 l) mod 2^32).
  { induction l as [|e l IH]; intros p; cbn [fold_left fold_right]; [f_equal; lia|].
    rewrite Z.mul_mod_idemp_l by lia. rewrite IH. f_equal. lia. }
  change 1 with (1 mod 2^32) at 1. rewrite G. f_equal. lia.
Qed.
Lemma removelast_single (sh : list Z) : sh <> [] -> (length sh <= 1)%nat -> removelast sh = [].
Proof. destruct sh as [|a [|b sh]]; cbn [length]; intros; try congruence; try lia. reflexivity. Qed.
Lemma set_bit_result_ok m sh rl : sh <> [] -> 0 <= rl < 2^32 -> 
  b_sh (set_bit_result m sh rl) = removelast sh ++ [rl] /\ b_mem (set_bit_result m sh rl) = m /\ b_ia (set_bit_result m sh rl) = (size (removelast sh) * rl) mod 2^32.
Proof.
  intros N Hrl. unfold set_bit_result. destruct (Z.leb_spec (Z.of_nat (length sh)) 1) as [L|G]; cbn [b_sh b_mem b_ia].
  - rewrite removelast_single by (auto; lia). cbn [app]. repeat split. unfold size. cbn [fold_right]. rewrite Z.mod_small; lia.
  - repeat split. rewrite shProdU_mod. unfold to_u. rewrite Z.mul_mod_idemp_r by lia. f_equal. lia.
Qed.

(** the checks on widths and lengths, common to all *)
Lemma set_bit_sound m sh xw rw : sh <> [] -> Forall (fun e => 0 <= e < 2^32) sh -> 0 < xw -> 0 < rw -> (rw | last sh 0 * xw) -> last sh 0 * xw / rw < 2^32 - 1 ->
  size sh * xw < 2^32 -> size sh * xw <= 64 * Z.of_nat (length m) ->
  let r := set_bit_result m sh (last sh 0 * xw / rw) in sound rw r /\ b_sh r = reshaped sh xw rw /\ b_mem r = m /\ size (b_sh r) * rw = size sh * xw.
Proof.
  intros N F Hx Hr [q Hd] Hl Hs Hm r. assert (Hl0 : 0 <= last sh 0). { rewrite Forall_forall in F. rewrite (app_removelast_last 0 N) in F. specialize (F (last sh 0)). apply F. apply in_or_app. right. left. reflexivity. }
  assert (Hq : last sh 0 * xw / rw = q) by (rewrite Hd; apply Z.div_mul; lia). 
  assert (Hq0 : 0 <= q) by nia. assert (Hp : 0 <= size (removelast sh)). { apply size_nonneg. rewrite (app_removelast_last 0 N) in F. apply Forall_app in F. tauto. }
  destruct (set_bit_result_ok m sh (last sh 0 * xw / rw) N) as [A [B C]]; [lia|]. fold r in A, B, C. rewrite (size_split sh N) in *.
  assert (E : size (b_sh r) = size (removelast sh) * q). { rewrite A, size_app, Hq. unfold size at 2. cbn [fold_right]. lia. }
  assert (ET : size (removelast sh) * q * rw = size (removelast sh) * last sh 0 * xw) by nia.
  rewrite Hq in C. rewrite Z.mod_small in C by nia.
  split; [|split; [exact A|split; [exact B|]]].
  - unfold sound. rewrite E, C, B. split; [reflexivity|]. lia.
  - rewrite E. exact ET.
Qed.

Lemma checks_ok {A} ow rw t (k : res A) : pow2 ow -> pow2 rw -> 
  let e := (if negb (Z.land t (ow - 1) =? 0) || negb (Z.shiftl (Z.shiftr t (Z.log2 rw)) (Z.log2 rw) =? t) then Err else if 2^32 - 1 <=? Z.shiftr t (Z.log2 rw) then Err else k) in
  ((ow | t) /\ (rw | t) /\ t / rw < 2^32 - 1 -> e = k) /\ (~ ((ow | t) /\ (rw | t) /\ t / rw < 2^32 - 1) -> e = Err).
Proof.
  intros Po Pr e. subst e. pose proof (pow2_pos _ Po) as Ho. pose proof (pow2_pos _ Pr) as Hr. rewrite pow2_and, pow2_shr, pow2_shl by auto.
  assert (D1 : t mod ow = 0 <-> (ow | t)) by (symmetry; rewrite <- Z.mod_divide by lia; tauto).
  assert (D2 : t / rw * rw = t <-> (rw | t)).
  { rewrite <- Z.mod_divide by lia. pose proof (Z.div_mod t rw ltac:(lia)) as E. split; intros; nia. }
  destruct (Z.eqb_spec (t mod ow) 0) as [E1|N1]; cbn [negb orb]; [|split; [intros [A1 _]; exfalso; tauto|reflexivity]].
  destruct (Z.eqb_spec (t / rw * rw) t) as [E2|N2]; cbn [negb]; [|split; [intros [_ [A1 _]]; exfalso; tauto|reflexivity]].
  destruct (Z.leb_spec (2^32-1) (t / rw)) as [L|G]; (split; [intros [_ [_ A1]]|intros A1]); try reflexivity; try lia. exfalso. apply A1. tauto.
Qed.

Lemma alloc_ok junk n : 0 <= n -> words (alloc junk n) /\ len (alloc junk n) = (n + 63) / 64.
Proof.
  intros Hn. unfold alloc, len. split.
  - apply Forall_map. rewrite Forall_forall. intros i _. apply w64_range.
  - rewrite map_length, seq_length. pose proof (Z.div_pos (n+63) 64). lia.
Qed.

Lemma wf_size w x : wf w x -> 0 <= b_ia x < 2^32 /\ b_ia x = size (b_sh x) /\ words (b_mem x) /\ size (b_sh x) * w <= 64 * len (b_mem x) /\ Forall (fun e => 0 <= e < 2^32) (b_sh x).
Proof. intros [A [B [C [D E]]]]. pose proof (size_nonneg _ A). unfold total, len in *. rewrite B in *. repeat split; auto; lia. Qed.
Lemma last_in sh : Forall (fun e => 0 <= e < 2^32) sh -> sh <> [] -> 0 <= last sh 0 < 2^32.
Proof. intros F N. rewrite Forall_forall in F. apply F. rewrite (app_removelast_last 0 N) at 2. apply in_or_app. right. left. reflexivity. Qed.
Lemma size_div sh d xw : sh <> [] -> (d | last sh 0 * xw) -> (d | size sh * xw).
Proof. intros N [q H]. rewrite (size_split sh N). exists (size (removelast sh) * q). rewrite <- !Z.mul_assoc, H. reflexivity. Qed.

Lemma bitop1_ok op f ow rw xw reuse junk x : given 3 f [ow; rw; xw] -> wf xw x -> total xw x < 2^32 ->
  (fitting ow rw xw (b_sh x) -> (op = Neg_ -> lanew ow) -> exists r, bitop1 op f reuse junk x = Ok r /\ sound rw r /\ b_sh r = reshaped (b_sh x) xw rw /\ unary op ow (total xw x) (b_mem x) (b_mem r)) /\
  (~ (fitting ow rw xw (b_sh x) /\ (op = Neg_ -> lanew ow)) -> bitop1 op f reuse junk x = Err).
Proof.
  intros G Hwf Ht. unfold bitop1. rewrite (widths_given _ _ _ G). cbn [bind nth].
  pose proof (given_pow2 _ _ _ 0%nat G ltac:(lia)) as Po. pose proof (given_pow2 _ _ _ 1%nat G ltac:(lia)) as Pr. pose proof (given_pow2 _ _ _ 2%nat G ltac:(lia)) as Px. cbn [nth] in Po, Pr, Px.
  pose proof (pow2_pos _ Po) as Ho. pose proof (pow2_pos _ Pr) as Hr. pose proof (pow2_pos _ Px) as Hx.
  destruct (wf_size _ _ Hwf) as [S0 [S1 [Wm [Sm Fs]]]]. unfold total in *.
  destruct (Z.ltb_spec (Z.of_nat (length (b_sh x))) 1) as [L0|L0].
  { split; [|reflexivity]. intros [A _] _. destruct (b_sh x); [congruence|cbn [length] in L0; lia]. }
  assert (Nn : b_sh x <> []) by (intros E; rewrite E in L0; cbn [length] in L0; lia).
  rewrite !(pow2_shl xw) by auto. set (t := last (b_sh x) 0 * xw) in *. set (n := to_u 32 (b_ia x * xw)).
  assert (En : n = size (b_sh x) * xw) by (unfold n, to_u; rewrite S1; apply Z.mod_small; split; [apply Z.mul_nonneg_nonneg; lia|exact Ht]).
  assert (Hn0 : 0 <= n) by (rewrite En; apply Z.mul_nonneg_nonneg; lia).
  match goal with |- context [if _ || _ then Err else if _ then Err else ?kk] => set (k := kk) end.
  destruct (checks_ok ow rw t k Po Pr) as [C1 C2].
  assert (KE : ~ (width xw /\ width rw /\ (op = Neg_ -> lanew ow)) -> k = Err).
  { intros NN. unfold k. destruct (data_width_ok xw) as [[-> W1]|[-> W1]]; cbn [bind]; [|reflexivity]. destruct (data_width_ok rw) as [[-> W2]|[-> W2]]; cbn [bind]; [|reflexivity].
    destruct op; [exfalso; apply NN; repeat split; auto; discriminate|]. destruct (lane_ok ow) eqn:EL; [|reflexivity]. exfalso. apply NN. repeat split; auto. intros _. apply lane_ok_iff. exact EL. }
  assert (DEC : (ow | t) /\ (rw | t) /\ t / rw < 2^32 - 1 \/ ~ ((ow | t) /\ (rw | t) /\ t / rw < 2^32 - 1)).
  { destruct (Znumtheory.Zdivide_dec ow t), (Znumtheory.Zdivide_dec rw t), (Z_lt_dec (t/rw) (2^32-1)); tauto. }
  split.
  - intros [_ [D1 [D2 [D3 [D4 D5]]]]] HL. fold t in D1, D2, D3. rewrite C1 by auto. unfold k. destruct (data_width_ok xw) as [[-> W1]|[_ W1]]; [|contradiction]. destruct (data_width_ok rw) as [[-> W2]|[_ W2]]; [|contradiction]. cbn [bind].
    rewrite pow2_shr by auto. destruct (alloc_ok junk n Hn0) as [AW AL].
    set (r0 := if reuse then b_mem x else alloc junk n). assert (W0 : words r0) by (unfold r0; destruct reuse; auto). assert (Ln : n <= 64 * len r0) by (unfold r0; destruct reuse; lia).
    assert (FIN : forall r, len r = len r0 -> sound rw (set_bit_result r (b_sh x) (t / rw)) /\ b_sh (set_bit_result r (b_sh x) (t / rw)) = reshaped (b_sh x) xw rw /\ b_mem (set_bit_result r (b_sh x) (t / rw)) = r).
    { intros r Lr. destruct (set_bit_sound r (b_sh x) xw rw Nn Fs) as [A1 [A2 [A3 _]]]; auto; try lia. unfold len in *; lia. }
    destruct op; cbn [unary].
    + destruct (wordloop_ok n (fun i r => do v <- rdz (if reuse then r else b_mem x) i; Ok (not64 v)) r0 (fun i => not64 (word (b_mem x) i)) W0 Ln Hn0) as [r [E1 [E2 [E3 E4]]]].
      { intros i r Hi Hin Lr Wr Hj. split; [|apply not64_range, word_range; auto]. destruct reuse.
        - rewrite rdz_ok by lia. cbn [bind]. rewrite Hj by lia. reflexivity.
        - rewrite rdz_ok by lia. reflexivity. }
      rewrite E1. cbn [bind]. destruct (FIN r E2) as [A1 [A2 A3]]. eexists. split; [reflexivity|]. split; [exact A1|]. split; [exact A2|]. rewrite A3. intros p Hp.
      rewrite !bitat_mbit by (auto; lia). rewrite E4 by lia. rewrite tb_not64 by lia. destruct (Z.ltb_spec (p mod 64) 64); [|lia]. rewrite (mbit_split (b_mem x)). apply xorb_true_r.
    + specialize (HL eq_refl). rewrite (proj2 (lane_ok_iff ow) HL).
      pose proof (size_div (b_sh x) ow xw Nn D1) as [q Eq]. assert (Eq2 : n / ow = q) by (rewrite En, Eq; apply Z.div_mul; lia).
      destruct (laneloop_ok ow n (fun i r => do v <- ldbits (if reuse then r else b_mem x) (i * ow) ow; Ok (- v)) r0 (fun i => (- field ow (b_mem x) i) mod 2^ow)) as [r [E1 [E2 [E3 E4]]]]; [exact HL|exact W0|nia|nia| |].
      { intros i r Hi Lr Wr Hk. destruct reuse.
        - rewrite ldbits_field by nia. cbn [bind]. eexists. split; [reflexivity|]. do 2 f_equal. unfold r0 in Hk.
          rewrite (field_eq ow r i (field ow (b_mem x) i)); [|exact Wr|lia|lia|].
          + apply Z.mod_small. apply field_range. lia.
          + intros b Hb. rewrite field_bits by (auto; lia). apply Hk. lia.
        - rewrite ldbits_field by nia. cbn [bind]. eexists. split; reflexivity. }
      rewrite E1. cbn [bind]. destruct (FIN r E2) as [A1 [A2 A3]]. eexists. split; [reflexivity|]. split; [exact A1|]. split; [exact A2|]. rewrite A3. intros i Hi. apply E4. rewrite En. exact Hi.
  - intros NF. destruct DEC as [D|D]; [|apply C2; exact D]. rewrite C1 by exact D. apply KE. intros [K1 [K2 K3]]. apply NF. split; [|exact K3]. unfold fitting. fold t. tauto.
Qed.
