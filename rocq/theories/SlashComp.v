(** Replicate with bits: every method of [compress] keeps the cells whose bit is set. *)
From Verif Require Import Base ListLib BitsModel BitsSpec BitsProof BitsProof2 SqueezeModel SqueezeProof WidenModel SlashModel SlashModel2 SlashModel3 SlashSpec SlashProof SlashBsp SlashWhere SlashWhere2 SlashInd.
From Coq Require Import List.

Lemma tb_ones' k : 0 <= k < 64 -> Z.testbit (2 ^ 64 - 1) k = true.
Proof. intros H. change (2 ^ 64 - 1) with (Z.ones 64). rewrite tb_ones by lia. apply Z.ltb_lt. lia. Qed.
Lemma tb_n64 x k : 0 <= k < 64 -> Z.testbit (not64 x) k = negb (Z.testbit x k).
Proof. intros H. rewrite tb_not64 by lia. replace (k <? 64) with true by (symmetry; apply Z.ltb_lt; lia). apply xorb_true_r. Qed.
Lemma skipn_at {A} (l : list A) : forall k v, nth_error l k = Some v -> skipn k l = v :: skipn (S k) l.
Proof. induction l as [|a l IH]; intros [|k] v H; cbn in H |- *; try discriminate. - injection H as ->. auto. - apply IH in H. rewrite H. auto. Qed.
Section P.
Context {A : Type} (xs : list A).
Definition pick (k : Z) : list A := match nth_error xs (Z.to_nat k) with Some v => [v] | None => [] end.
Definition picks (l : list Z) : list A := flat_map pick l.
Lemma picks_app a b : picks (a ++ b) = picks a ++ picks b. Proof. apply flat_map_app. Qed.
Lemma pick_one k : 0 <= k < Z.of_nat (length xs) -> exists v, xat xs k = Ok v /\ pick k = [v].
Proof. intros H. unfold xat, pick. destruct (Z.ltb_spec k 0); [lia|]. destruct (nth_error xs (Z.to_nat k)) as [v|] eqn:E; [exists v; auto|]. apply nth_error_None in E. lia. Qed.
Lemma picks_len l : Forall (fun k => 0 <= k < Z.of_nat (length xs)) l -> length (picks l) = length l.
Proof. induction 1 as [|k l H F IH]; auto. cbn [picks flat_map]. fold (picks l). rewrite app_length, IH. destruct (pick_one k H) as (v&_&->). auto. Qed.
Lemma emit_ok cap (l out : list A) : Z.of_nat (length out) + Z.of_nat (length l) <= cap -> emit cap l out = Ok (out ++ l).
Proof. intros H. unfold emit. destruct (Z.leb_spec (Z.of_nat (length out) + Z.of_nat (length l)) cap); [auto|lia]. Qed.

Context (wp : list Z) (wia wsum : Z).
Hypothesis Ww : words wp.
Hypothesis Wi : 0 < wia <= Z.of_nat (length xs).
Hypothesis Wl : (wia + 63) / 64 <= len wp.
Hypothesis T0 : forall i, wia <= i < 64 * ((wia + 63) / 64) -> mbit wp i = false.
Hypothesis Lb : mbit wp (wia - 1) = true.
Hypothesis Sm : wsum = cnt (fun i => mbit wp i) 0 (Z.to_nat wia).
Let g := fun i => mbit wp i.
Let P (i : Z) := picks (ons g 0 (Z.to_nat i)).
Lemma P_len i : 0 <= i <= wia -> Z.of_nat (length (P i)) = cnt g 0 (Z.to_nat i).
Proof. intros H. unfold P. rewrite picks_len; [reflexivity|]. apply Forall_forall. intros k Hk. apply ons_in in Hk. lia. Qed.
Lemma P_S i : 0 <= i -> P (i + 1) = P i ++ (if g i then pick i else []).
Proof. intros H. unfold P. replace (Z.to_nat (i + 1)) with (Z.to_nat i + 1)%nat by lia. rewrite ons_app, picks_app, ons_S, ons_0, app_nil_r. rewrite Z2Nat.id, Z.add_0_l by lia. f_equal. destruct (g i); auto. cbn [picks flat_map]. apply app_nil_r. Qed.
Lemma cnt_S' i : 0 <= i -> cnt g 0 (Z.to_nat (i + 1)) = cnt g 0 (Z.to_nat i) + (if g i then 1 else 0).
Proof. intros H. replace (Z.to_nat (i + 1)) with (Z.to_nat i + 1)%nat by lia. pose proof (cnt_app g 0 (Z.to_nat i) 1) as E. rewrite (cnt_S g _ 0) in E. rewrite Z2Nat.id, Z.add_0_l in E by lia. assert (Z0 : cnt g (i + 1) 0 = 0) by (unfold cnt; rewrite ons_0; reflexivity). lia. Qed.
Lemma ons_split i b : 0 <= i -> 0 <= b -> ons g 0 (Z.to_nat (i + b)) = ons g 0 (Z.to_nat i) ++ ons g i (Z.to_nat b).
Proof. intros I B. rewrite Z2Nat.inj_add by lia. rewrite ons_app, Z.add_0_l, Z2Nat.id by lia. auto. Qed.
Lemma cnt_mono i j : 0 <= i <= j -> cnt g 0 (Z.to_nat i) <= cnt g 0 (Z.to_nat j).
Proof. intros H. replace (Z.to_nat j) with (Z.to_nat i + Z.to_nat (j - i))%nat by lia. rewrite cnt_app. pose proof (cnt_nonneg g (0 + Z.of_nat (Z.to_nat i)) (Z.to_nat (j - i))). lia. Qed.
Lemma cnt_lt i : 0 <= i < wia -> cnt g 0 (Z.to_nat i) < wsum.
Proof. intros H. rewrite Sm. pose proof (cnt_mono i (wia - 1) ltac:(lia)). pose proof (cnt_S' (wia - 1) ltac:(lia)) as E. replace (wia - 1 + 1) with wia in E by lia. assert (Lb' : g (wia - 1) = true) by exact Lb. rewrite Lb' in E. fold g. lia. Qed.
Lemma P0 : P 0 = []. Proof. unfold P. change (Z.to_nat 0) with 0%nat. rewrite ons_0. auto. Qed.

Lemma rdbit i : 0 <= i < wia -> exists w, rdz wp (i / 64) = Ok w /\ Z.testbit w (i mod 64) = g i.
Proof. intros H. rewrite rdz_ok by lia. eexists. split; [reflexivity|]. unfold g. rewrite mbit_split by lia. auto. Qed.
Lemma slow_ok : compress_slow wp xs wia wsum = Ok (P wia).
Proof.
  unfold compress_slow. assert (G : forall n i, 0 <= i -> i + Z.of_nat n = wia -> for_ n i (fun i out => do w <- rdz wp (i / 64); if Z.testbit w (i mod 64) then do v <- xat xs i; emit wsum [v] out else Ok out) (P i) = Ok (P wia)).
  { induction n as [|n IH]; intros i I E; cbn [for_]; [replace wia with i by lia; auto|]. destruct (rdbit i ltac:(lia)) as (w&Ew&Tw). rewrite Ew. cbn [bind]. rewrite Tw. pose proof (P_S i I) as Ps. destruct (pick_one i ltac:(lia)) as (v&Ev&Pv). destruct (g i).
    - rewrite Ev. cbn [bind]. rewrite emit_ok by (rewrite P_len by lia; cbn [length]; pose proof (cnt_lt i ltac:(lia)); lia). rewrite <- Pv, <- Ps. apply IH; lia.
    - rewrite app_nil_r in Ps. rewrite <- Ps. apply IH; lia. }
  rewrite <- (G (Z.to_nat wia) 0) by lia. rewrite P0. auto.
Qed.
Lemma dense_ok : compress_dense wp xs wia wsum = Ok (P wia).
Proof.
  unfold compress_dense. assert (G : forall n i, 0 <= i -> i + Z.of_nat n = wia -> for_ n i (fun i out => do v <- xat xs i; do out' <- emit wsum [v] out; do w <- rdz wp (i / 64); Ok (if Z.testbit w (i mod 64) then out' else out)) (P i) = Ok (P wia)).
  { induction n as [|n IH]; intros i I E; cbn [for_]; [replace wia with i by lia; auto|]. destruct (rdbit i ltac:(lia)) as (w&Ew&Tw). pose proof (P_S i I) as Ps. destruct (pick_one i ltac:(lia)) as (v&Ev&Pv). rewrite Ev. cbn [bind]. rewrite emit_ok by (rewrite P_len by lia; cbn [length]; pose proof (cnt_lt i ltac:(lia)); lia). cbn [bind]. rewrite Ew. cbn [bind]. rewrite Tw. destruct (g i).
    - rewrite <- Pv, <- Ps. apply IH; lia.
    - rewrite app_nil_r in Ps. rewrite <- Ps. apply IH; lia. }
  rewrite <- (G (Z.to_nat wia) 0) by lia. rewrite P0. auto.
Qed.
Lemma gather_ok i ks : forall out, 0 <= i -> Forall (fun k => 0 <= i + k < Z.of_nat (length xs)) ks -> Z.of_nat (length out) + Z.of_nat (length ks) <= wsum -> gather xs i ks wsum out = Ok (out ++ picks (map (fun k => i + k) ks)).
Proof.
  induction ks as [|k ks IH]; intros out I F L; cbn [gather map picks flat_map]. - rewrite app_nil_r. auto.
  - inversion F as [|? ? Hk F']; subst. cbn [length] in L. destruct (pick_one (i + k) Hk) as (v&Ev&Pv). rewrite Ev. cbn [bind]. rewrite emit_ok by (cbn [length]; lia). cbn [bind]. rewrite IH; auto; [|rewrite app_length; cbn [length]; lia]. fold (picks (map (fun k => i + k) ks)). rewrite Pv, <- app_assoc. auto.
Qed.
Lemma block_ok junk : forall fuel i, 0 <= i <= wia -> (i = wia \/ i mod 64 = 0) -> wia - i <= 64 * Z.of_nat fuel -> compress_block fuel junk wp xs wia wsum i (P i) = Ok (P wia).
Proof.
  assert (Mx : bsp_max = 1984) by reflexivity. induction fuel as [|f IH]; intros i I Im F; cbn [compress_block]; (destruct (Z.leb_spec wia i); [replace i with wia by lia; auto|]); [lia|].
  set (b := if wia - i <? bsp_max then wia - i else bsp_max). destruct (block_b wp wia Wl T0 i b ltac:(lia) ltac:(lia) eq_refl) as (B1&B2&B3&B4&B5&B6). rewrite P_len by lia.
  pose proof (block_sum wp wia wsum Wl T0 Sm i b ltac:(lia) ltac:(lia) eq_refl ltac:(lia)) as Bs. cbv beta zeta in Bs. fold g in Bs. rewrite Bs. cbn [bind]. clear Bs.
  pose proof (where_block_ok wp Ww junk (i / 64) b ltac:(lia) ltac:(lia) B4 B3) as Wb. cbv zeta in Wb. rewrite gcnt, B6 in Wb. fold g in Wb. rewrite Wb. cbn [bind]. pose proof (goff wp (i / 64) (Z.to_nat b)) as Go. rewrite B6 in Go.
  assert (Ln : forall q, In q (ons (fun k => mbit wp (i + k)) 0 (Z.to_nat b)) -> 0 <= q < b) by (intros q Hq; apply ons_in in Hq; lia).
  rewrite gather_ok; [| lia | |].
  - rewrite Go. fold g. unfold P at 1. rewrite <- picks_app, <- (ons_split i b) by lia. apply IH; lia.
  - apply Forall_forall. intros q Hq. apply Ln in Hq. lia.
  - rewrite P_len by lia. assert (E : Z.of_nat (length (ons (fun k => mbit wp (i + k)) 0 (Z.to_nat b))) = cnt g i (Z.to_nat b)) by (unfold cnt, g; rewrite <- Go, map_length; auto). rewrite E. assert (E1 : cnt g 0 (Z.to_nat (i + b)) = cnt g 0 (Z.to_nat i) + cnt g i (Z.to_nat b)) by (unfold cnt; rewrite (ons_split i b), app_length by lia; lia). pose proof (cnt_mono (i + b) wia ltac:(lia)) as E2. rewrite Sm. fold g. lia.
Qed.

(** runs *)
Definition from (p i wv : Z) : Prop := 0 <= i /\ 0 <= wv < 2 ^ 64 /\ (forall k, 0 <= k < 64 -> Z.testbit wv k = (p <=? 64 * i + k) && g (64 * i + k)).
Lemma from_word p i : 0 <= i -> p <= 64 * i -> from p i (word wp i).
Proof. intros I H. split; auto. split; [apply word_range; auto|]. intros k K. destruct (Z.leb_spec p (64 * i + k)); [|lia]. cbn [andb]. unfold g. rewrite mbit_word by lia. auto. Qed.
Lemma skip0_ok p q : g q = true -> (forall k, p <= k < q -> g k = false) -> 0 <= p <= q -> q < wia -> forall fuel i wv, from p i wv -> 64 * i <= q -> p <= 64 * (i + 1) -> (Z.to_nat (q / 64 - i) < fuel)%nat ->
  exists wv', skip0 fuel wp wv i = Ok (wv', q / 64) /\ from p (q / 64) wv' /\ CTZ wv' = Ok (q mod 64).
Proof.
  intros Gq Gn Pq Qw. induction fuel as [|f IH]; intros i wv Fr Iq Pi Fu; [lia|]. cbn [skip0]. destruct Fr as (I0&Wr&Tb). destruct (Z.eqb_spec wv 0) as [->|N]; cbn [negb].
  - assert (Lt : i < q / 64). { destruct (Z.lt_ge_cases i (q / 64)); auto. exfalso. specialize (Tb (q mod 64) ltac:(lia)). rewrite Z.bits_0 in Tb. replace (64 * i + q mod 64) with q in Tb by lia. rewrite Gq in Tb. destruct (Z.leb_spec p q); [discriminate|lia]. }
    rewrite rdz_ok by lia. cbn [bind]. apply IH; [apply from_word; lia|lia|lia|lia].
  - assert (E : i = q / 64). { destruct (Z.lt_ge_cases i (q / 64)); [|lia]. exfalso. destruct (nonzero_bit 64 wv Wr N) as (k&K&Tk). rewrite Tb in Tk by auto. apply andb_true_iff in Tk. destruct Tk as [T1 T2]. apply Z.leb_le in T1. rewrite Gn in T2; [discriminate|]. lia. }
    exists wv. rewrite E. split; auto. split; [subst i; split; auto|]. destruct (CTZ_spec wv (q mod 64)) as (c&Ec&Hc&Tc&Lc); [lia| |]. { rewrite Tb by lia. replace (64 * i + q mod 64) with q by lia. rewrite Gq. destruct (Z.leb_spec p q); auto. lia. }
    rewrite Ec. f_equal. destruct (Z.eq_dec c (q mod 64)); auto. exfalso. rewrite Tb in Tc by lia. apply andb_true_iff in Tc. destruct Tc as [T1 T2]. apply Z.leb_le in T1. rewrite Gn in T2; [discriminate|]. lia.
Qed.
(** after the low zeros are filled in *)
Definition after (p i wv : Z) : Prop := 0 <= i /\ 0 <= wv < 2 ^ 64 /\ (forall k, 0 <= k < 64 -> Z.testbit wv k = (64 * i + k <? p) || g (64 * i + k)).
Lemma fill_low wv c : 0 <= wv < 2 ^ 64 -> CTZ wv = Ok c -> wv <> 0 -> 0 <= c < 64 /\ 0 <= Z.lor wv (wv - 1) < 2 ^ 64 /\ forall k, 0 <= k < 64 -> Z.testbit (Z.lor wv (wv - 1)) k = (k <? c) || Z.testbit wv k.
Proof.
  intros R E N. destruct (nonzero_bit 64 wv R N) as (b&Hb&Tb). destruct (CTZ_spec wv b ltac:(lia) Tb) as (c0&E0&Hc&Tc&Lo). rewrite E in E0. injection E0 as <-. split; [lia|].
  assert (P' : 0 < 2 ^ c) by (apply Z.pow_pos_nonneg; lia). set (u := wv / 2 ^ c). assert (V : wv = 2 ^ c * u). { assert (M0 : wv mod 2 ^ c = 0). { apply Z.bits_inj'. intros k Hk. rewrite Z.bits_0. destruct (Z.lt_ge_cases k c); [rewrite Z.mod_pow2_bits_low by lia; auto|apply Z.mod_pow2_bits_high; lia]. } pose proof (Z.div_mod wv (2 ^ c)). fold u in H. lia. }
  assert (Tu : Z.odd u = true) by (rewrite <- Z.bit0_odd; unfold u; rewrite Z.div_pow2_bits by lia; auto).
  assert (G : forall k, 0 <= k -> Z.testbit (Z.lor wv (wv - 1)) k = (k <? c) || Z.testbit wv k).
  { intros k K. rewrite Z.lor_spec. replace (wv - 1) with (2 ^ c * (u - 1) + (2 ^ c - 1)) by lia. destruct (Z.ltb_spec k c).
    - rewrite Lo by lia. cbn [orb]. rewrite <- (Z.mod_pow2_bits_low _ c) by lia. replace (2 ^ c * (u - 1) + (2 ^ c - 1)) with ((2 ^ c - 1) + (u - 1) * 2 ^ c) by lia. rewrite Z.mod_add by lia. rewrite Z.mod_small by lia. replace (2 ^ c - 1) with (Z.ones c) by (rewrite Z.ones_equiv; lia). apply Z.ones_spec_low. lia.
    - cbn [orb]. replace k with ((k - c) + c) at 2 by lia. rewrite <- Z.div_pow2_bits by lia. rewrite Z.mul_comm, Z.div_add_l by lia. rewrite (Z.div_small (2 ^ c - 1)) by lia. rewrite Z.add_0_r. replace (Z.testbit wv k) with (Z.testbit u (k - c)) by (unfold u; rewrite Z.div_pow2_bits by lia; f_equal; lia).
      pose proof (Z.odd_spec u) as [O _]. destruct (O Tu) as (q&Q). rewrite Q. replace (2 * q + 1 - 1) with (2 * q) by lia. destruct (Z.eq_dec (k - c) 0) as [->|Nz]. + rewrite Z.testbit_odd_0. auto. + replace (k - c) with (Z.succ (k - c - 1)) by lia. rewrite Z.double_bits_succ, Z.testbit_odd_succ by lia. destruct (Z.testbit q _); auto. }
  split; [|intros; apply G; lia]. apply bits_range; [lia|]. intros k K. rewrite G by lia. destruct (Z.ltb_spec k c); [lia|]. apply (range_bits wv 64 k); lia.
Qed.
Lemma skip1_ok p q : (forall k, p <= k < q -> g k = true) -> g q = false \/ q = 64 * ((wia - 1) / 64 + 1) -> 0 <= p < q -> q <= wia -> let wn := (wia - 1) / 64 + 1 in forall fuel i wv, after p i wv -> 64 * i <= q -> i < wn -> (Z.to_nat (q / 64 - i) < fuel)%nat -> p < 64 * (i + 1) ->
  exists wv', skip1 fuel wp wn wv i = Ok (wv', q / 64) /\ 0 <= wv' < 2 ^ 64 /\ CTZ (not64 wv') = Ok (q mod 64) /\ (forall k, 0 <= k < 64 -> Z.testbit wv' k = ((64 * (q / 64) + k <? p) || g (64 * (q / 64) + k)) && (q / 64 <? wn)).
Proof.
  intros Gp Gq Pq Qw wn.
  assert (Fin : forall wv', 0 <= wv' < 2 ^ 64 -> (forall k, 0 <= k < 64 -> Z.testbit wv' k = ((64 * (q / 64) + k <? p) || g (64 * (q / 64) + k)) && (q / 64 <? wn)) -> wv' <> 2 ^ 64 - 1 /\ CTZ (not64 wv') = Ok (q mod 64)).
  { intros wv' R T. assert (Tq : Z.testbit wv' (q mod 64) = false). { rewrite T by lia. replace (64 * (q / 64) + q mod 64) with q by lia. destruct Gq as [Gq|Gq]; [rewrite Gq; destruct (Z.ltb_spec q p); [lia|auto]|]. fold wn in Gq. destruct (Z.ltb_spec (q / 64) wn); [lia|]. apply andb_false_r. }
    split. { intros ->. rewrite tb_ones' in Tq by lia. discriminate. }
    assert (Nb : forall k, 0 <= k < 64 -> Z.testbit (not64 wv') k = negb (Z.testbit wv' k)) by (intros k K; apply tb_n64; lia).
    destruct (CTZ_spec (not64 wv') (q mod 64)) as (c&Ec&Hc&Tc&Lc); [lia|rewrite Nb by lia; rewrite Tq; auto|]. rewrite Ec. f_equal. destruct (Z.eq_dec c (q mod 64)); auto. exfalso. rewrite Nb in Tc by lia. rewrite T in Tc by lia.
    assert (q / 64 < wn). { unfold wn. destruct (Z.eq_dec (q mod 64) 0); lia. } destruct (Z.ltb_spec (q / 64) wn); [|lia]. rewrite andb_true_r in Tc. destruct (Z.ltb_spec (64 * (q / 64) + c) p); [discriminate|]. rewrite Gp in Tc; [discriminate|]. lia. }
  induction fuel as [|f IH]; intros i wv (I0&R&T) Iq Iw Fu Pi; [lia|]. cbn [skip1]. destruct (Z.eq_dec i (q / 64)) as [Ei|Ni].
  - assert (Tw : forall k, 0 <= k < 64 -> Z.testbit wv k = ((64 * (q / 64) + k <? p) || g (64 * (q / 64) + k)) && (q / 64 <? wn)). { intros k K. rewrite T by auto. rewrite Ei. destruct (Z.ltb_spec (q / 64) wn); [|lia]. rewrite andb_true_r. auto. }
    destruct (Fin wv R Tw) as (N&C). destruct (Z.eqb_spec wv (2 ^ 64 - 1)); [lia|]. cbn [negb]. exists wv. rewrite Ei. auto.
  - assert (E : wv = 2 ^ 64 - 1). { apply Z.bits_inj'. intros k K. destruct (Z.lt_ge_cases k 64). - rewrite tb_ones' by lia. rewrite T by lia. destruct (Z.ltb_spec (64 * i + k) p); auto. rewrite Gp by lia. auto. - rewrite (range_bits wv 64 k), (range_bits (2 ^ 64 - 1) 64 k) by lia. auto. }
    rewrite E, Z.eqb_refl. cbn [negb]. destruct (Z.ltb_spec (i + 1) wn).
    + rewrite rdz_ok by (unfold wn in *; lia). cbn [bind]. apply IH; try lia. split; [lia|]. split; [apply word_range; auto|]. intros k K. rewrite <- mbit_word by lia. fold g. unfold g. destruct (Z.ltb_spec (64 * (i + 1) + k) p); [lia|auto].
    + assert (Eq : i + 1 = q / 64) by (unfold wn in *; lia). assert (Z0 : forall k, 0 <= k < 64 -> Z.testbit 0 k = ((64 * (q / 64) + k <? p) || g (64 * (q / 64) + k)) && (q / 64 <? wn)) by (intros k K; rewrite Z.bits_0; destruct (Z.ltb_spec (q / 64) wn); [lia|rewrite andb_false_r; auto]).
      destruct (Fin 0 ltac:(lia) Z0) as (N&C). destruct f as [|f]; [lia|]. cbn [skip1]. rewrite Eq. exists 0. split; [reflexivity|]. split; [lia|]. auto.
Qed.
Lemma clear_ones v d : 0 <= v < 2 ^ 64 -> 0 <= d < 64 -> CTZ (not64 v) = Ok d -> v <> 2 ^ 64 - 1 -> 0 <= Z.land v ((v + 1) mod 2 ^ 64) < 2 ^ 64 /\ forall k, 0 <= k < 64 -> Z.testbit (Z.land v ((v + 1) mod 2 ^ 64)) k = (d <=? k) && Z.testbit v k.
Proof.
  intros R D E N. rewrite (Z.mod_small (v + 1)) by lia.
  assert (NN : not64 v <> 0). { intros Q. rewrite Q in E. discriminate E. } assert (Nr : 0 <= not64 v < 2 ^ 64). { apply bits_range; [lia|]. intros k K. rewrite tb_not64 by lia. destruct (Z.ltb_spec k 64); [lia|]. rewrite (range_bits v 64 k) by lia. auto. }
  destruct (nonzero_bit 64 _ Nr NN) as (b&Hb&Tb). destruct (CTZ_spec (not64 v) b ltac:(lia) Tb) as (c0&E0&Hc&Tc&Lo). rewrite E in E0. injection E0 as <-. rewrite tb_n64 in Tc by lia. apply negb_true_iff in Tc.
  assert (Lo' : forall k, 0 <= k < d -> Z.testbit v k = true). { intros k K. specialize (Lo k ltac:(lia)). rewrite tb_n64 in Lo by lia. apply negb_false_iff in Lo. auto. }
  assert (P' : 0 < 2 ^ d) by (apply Z.pow_pos_nonneg; lia). set (u := v / 2 ^ d). assert (V : v = 2 ^ d * u + (2 ^ d - 1)). { assert (M0 : v mod 2 ^ d = Z.ones d). { apply Z.bits_inj'. intros k Hk. rewrite tb_ones by lia. destruct (Z.ltb_spec k d); [rewrite Z.mod_pow2_bits_low by lia; auto|apply Z.mod_pow2_bits_high; lia]. } rewrite Z.ones_equiv in M0. pose proof (Z.div_mod v (2 ^ d)). fold u in H. lia. }
  assert (Tu : Z.odd u = false) by (rewrite <- Z.bit0_odd; unfold u; rewrite Z.div_pow2_bits by lia; auto).
  assert (G : forall k, 0 <= k -> Z.testbit (Z.land v (v + 1)) k = (d <=? k) && Z.testbit v k).
  { intros k K. rewrite Z.land_spec. replace (v + 1) with ((u + 1) * 2 ^ d) by lia. destruct (Z.leb_spec d k).
    - cbn [andb]. rewrite Z.mul_pow2_bits by lia. assert (Tk : Z.testbit v k = Z.testbit u (k - d)) by (unfold u; rewrite Z.div_pow2_bits by lia; f_equal; lia). rewrite Tk. rewrite <- Z.negb_even in Tu. apply negb_false_iff, Z.even_spec in Tu. destruct Tu as (q&Q). rewrite Q. destruct (Z.eq_dec (k - d) 0) as [->|Nz]. + rewrite Z.testbit_even_0. auto. + replace (k - d) with (Z.succ (k - d - 1)) by lia. rewrite Z.double_bits_succ, Z.testbit_odd_succ by lia. destruct (Z.testbit q _); auto.
    - rewrite Z.mul_pow2_bits_low by lia. apply andb_false_r. }
  split; [|intros; apply G; lia]. apply bits_range; [lia|]. intros k K. rewrite G by lia. rewrite (range_bits v 64 k) by lia. apply andb_false_r.
Qed.
Lemma first_from (f : Z -> bool) n : forall a, f (a + Z.of_nat n) = true -> exists q, a <= q <= a + Z.of_nat n /\ f q = true /\ forall k, a <= k < q -> f k = false.
Proof.
  induction n as [|n IH]; intros a H. - exists a. replace (a + Z.of_nat 0) with a in * by lia. repeat split; auto; lia.
  - destruct (f a) eqn:E. + exists a. repeat split; auto; lia. + destruct (IH (a + 1)) as (q&Q1&Q2&Q3); [rewrite <- H; f_equal; lia|]. exists q. repeat split; auto; try lia. intros k K. destruct (Z.eq_dec k a) as [->|]; auto. apply Q3. lia.
Qed.
Lemma run_pick n : forall a, 0 <= a -> (forall k, a <= k < a + Z.of_nat n -> g k = true) -> a + Z.of_nat n <= Z.of_nat (length xs) -> picks (ons g a n) = firstn n (skipn (Z.to_nat a) xs).
Proof.
  induction n as [|n IH]; intros a H G L. - rewrite ons_0. auto.
  - rewrite ons_S. rewrite G by lia. rewrite picks_app. rewrite IH; [|lia|intros; apply G; lia|lia]. cbn [picks flat_map]. rewrite app_nil_r. unfold pick. replace (Z.to_nat (a + 1)) with (S (Z.to_nat a)) by lia. destruct (nth_error xs (Z.to_nat a)) as [v|] eqn:E; [|apply nth_error_None in E; lia]. rewrite (skipn_at _ _ _ E). auto.
Qed.
Lemma none_pick n a : (forall k, a <= k < a + Z.of_nat n -> g k = false) -> picks (ons g a n) = [].
Proof. intros H. assert (E : ons g a n = []). { destruct (ons g a n) as [|k l] eqn:E; auto. exfalso. assert (I : In k (ons g a n)) by (rewrite E; left; auto). apply ons_in in I. destruct I as [I1 I2]. rewrite H in I2 by lia. discriminate. } rewrite E. auto. Qed.
Lemma group_ok : forall fuel p i wv, 0 <= p <= wia -> (p < wia -> from p i wv /\ 64 * i <= p <= 64 * (i + 1)) -> wia - p < Z.of_nat fuel -> group_loop fuel wp xs ((wia - 1) / 64 + 1) wsum wv i (P p) = Ok (P wia).
Proof.
  assert (End : Z.of_nat (length (P wia)) = wsum) by (rewrite P_len by lia; rewrite Sm; auto).
  induction fuel as [|f IH]; intros p i wv Hp Fr Fu; [lia|]. cbn [group_loop]. destruct (Z.eq_dec p wia) as [->|Np]. { destruct (Z.leb_spec wsum (Z.of_nat (length (P wia)))); [auto|lia]. }
  assert (Lt : p < wia) by lia. destruct (Fr Lt) as (F1&Ip). pose proof (cnt_lt p ltac:(lia)) as Cl. destruct (Z.leb_spec wsum (Z.of_nat (length (P p)))) as [Hl|Hl]; [rewrite P_len in Hl by lia; lia|].
  destruct (first_from g (Z.to_nat (wia - 1 - p)) p) as (q0&Q1&Q2&Q3). { rewrite <- Lb. unfold g. f_equal. lia. }
  destruct (skip0_ok p q0 Q2 Q3 ltac:(lia) ltac:(lia) (S (length wp)) i wv F1 ltac:(lia) ltac:(lia) ltac:(unfold len in *; lia)) as (wv1&S1&F2&C1). rewrite S1. cbn [bind]. rewrite C1. cbn [bind]. replace (64 * (q0 / 64) + q0 mod 64) with q0 by lia.
  destruct F2 as (I2&R2&T2). assert (Nz : wv1 <> 0). { intros ->. discriminate C1. } destruct (fill_low wv1 _ R2 C1 Nz) as (Hc&R3&T3).
  assert (Fst : exists q1, q0 < q1 <= wia /\ (g q1 = false \/ q1 = 64 * ((wia - 1) / 64 + 1)) /\ forall k, q0 <= k < q1 -> g k = true).
  { destruct (first_from (fun k => negb (g k) || (wia <=? k)) (Z.to_nat (wia - q0 - 1)) (q0 + 1)) as (q1&A1&A2&A3). { replace (q0 + 1 + Z.of_nat (Z.to_nat (wia - q0 - 1))) with wia by lia. rewrite Z.leb_refl. apply orb_true_r. }
    exists q1. split; [lia|]. split. - destruct (Z.leb_spec wia q1). + assert (q1 = wia) by lia. subst q1. destruct (Z.eq_dec (wia mod 64) 0); [right; lia|left; unfold g; apply T0; lia]. + rewrite orb_false_r in A2. apply negb_true_iff in A2. auto.
    - intros k K. destruct (Z.eq_dec k q0) as [->|]; auto. specialize (A3 k ltac:(lia)). apply orb_false_iff in A3. destruct A3 as [A3 _]. apply negb_false_iff in A3. auto. }
  destruct Fst as (q1&B1&B2&B3). assert (Af : after q0 (q0 / 64) (Z.lor wv1 (wv1 - 1))). { split; [lia|]. split; auto. intros k K. rewrite T3, T2 by auto. destruct (Z.ltb_spec k (q0 mod 64)), (Z.ltb_spec (64 * (q0 / 64) + k) q0); try lia; cbn [orb]; auto. destruct (Z.leb_spec p (64 * (q0 / 64) + k)); auto. lia. }
  destruct (skip1_ok q0 q1 B3 B2 ltac:(lia) ltac:(lia) (S (length wp)) (q0 / 64) _ Af ltac:(lia) ltac:(lia) ltac:(unfold len in *; lia) ltac:(lia)) as (wv2&S2&R4&C2&T4). rewrite S2. cbn [bind]. rewrite C2. cbn [bind]. replace (64 * (q1 / 64) + q1 mod 64) with q1 by lia.
  assert (Xr : xrange xs q0 q1 = Ok (picks (ons g q0 (Z.to_nat (q1 - q0))))). { unfold xrange. destruct (Z.leb_spec 0 q0); [|lia]. destruct (Z.leb_spec q0 q1); [|lia]. destruct (Z.leb_spec q1 (Z.of_nat (length xs))); [|lia]. cbn [andb]. rewrite run_pick; auto; try lia. intros. apply B3. lia. }
  assert (Pq : P q1 = P p ++ picks (ons g q0 (Z.to_nat (q1 - q0)))). { assert (E1 : P q0 = P p). { unfold P. replace q0 with (p + (q0 - p)) by lia. rewrite ons_split, picks_app by lia. rewrite (none_pick _ p), app_nil_r; auto. intros. apply Q3. lia. } rewrite <- E1. unfold P. replace q1 with (q0 + (q1 - q0)) at 1 by lia. rewrite ons_split, picks_app by lia. auto. }
  rewrite Xr. cbn [bind]. rewrite emit_ok. 2:{ rewrite <- Nat2Z.inj_add, <- app_length, <- Pq, P_len by lia. rewrite Sm. apply cnt_mono. lia. }
  cbn [bind]. rewrite <- Pq. apply IH; [lia| |lia]. intros Lq. split; [|lia].
  assert (Nn : wv2 <> 2 ^ 64 - 1). { intros ->. discriminate C2. } destruct (clear_ones wv2 (q1 mod 64) R4 ltac:(lia) C2 Nn) as (R5&T5). split; [lia|]. split; auto. intros k K. rewrite T5, T4 by lia. destruct (Z.ltb_spec (q1 / 64) ((wia - 1) / 64 + 1)); [|lia]. rewrite andb_true_r. destruct (Z.leb_spec (q1 mod 64) k), (Z.leb_spec q1 (64 * (q1 / 64) + k)); try lia; cbn [andb]; auto. destruct (Z.ltb_spec (64 * (q1 / 64) + k) q0); auto. lia.
Qed.
Lemma grouped_ok : compress_grouped wp xs wia wsum = Ok (P wia).
Proof. unfold compress_grouped. rewrite rdz_ok by lia. cbn [bind]. rewrite <- P0. apply (group_ok _ 0); [lia| |lia]. intros _. split; [apply from_word; lia|lia]. Qed.
End P.
