(** [where_] gives the positions of the set bits. *)
From Verif Require Import Base ListLib BitsModel BitsSpec BitsProof BitsProof2 SqueezeModel SqueezeProof WidenModel SearchModel SlashModel SlashProof SlashBsp.
From Coq Require Import List.

Lemma zero_buf_ok buf b n : 0 <= b -> 0 <= n -> b + n <= len buf -> exists buf', zero_buf buf b n = Ok buf' /\ length buf' = length buf /\ (forall k, 0 <= k -> word buf' k = if (b <=? k) && (k <? b + n) then 0 else word buf k).
Proof.
  intros B N L. unfold zero_buf. assert (G : forall m j buf0, 0 <= j -> b + j + Z.of_nat m <= len buf0 -> exists buf', for_ m j (fun j buf => wrz buf (b + j) 0) buf0 = Ok buf' /\ length buf' = length buf0 /\ (forall k, 0 <= k -> word buf' k = if (b + j <=? k) && (k <? b + j + Z.of_nat m) then 0 else word buf0 k)).
  { induction m as [|m IH]; intros j buf0 J L0; cbn [for_].
    - exists buf0. split; auto. split; auto. intros k K. destruct (Z.leb_spec (b + j) k), (Z.ltb_spec k (b + j + Z.of_nat 0)); auto; lia.
    - rewrite wrz_ok by lia. cbn [bind]. destruct (IH (j + 1) (upd buf0 (Z.to_nat (b + j)) 0)) as (buf'&E&Lb&W); [lia|rewrite len_upd; lia|]. exists buf'. split; auto. split; [rewrite Lb; apply upd_length|]. intros k K. rewrite W, word_upd by lia.
      destruct (Z.leb_spec (b + (j + 1)) k), (Z.ltb_spec k (b + (j + 1) + Z.of_nat m)), (Z.leb_spec (b + j) k), (Z.ltb_spec k (b + j + Z.of_nat (S m))), (Z.eqb_spec k (b + j)); cbn [andb]; auto; lia. }
  destruct (G (Z.to_nat n) 0 buf) as (buf'&E&Lb&W); try lia. exists buf'. split; auto. split; auto. intros k K. rewrite W by auto. rewrite Z.add_0_r, Z2Nat.id by lia. auto.
Qed.
Lemma firstn_word a b n : (n <= length a)%nat -> length a = length b -> (forall k, 0 <= k < Z.of_nat n -> word a k = word b k) -> firstn n a = firstn n b.
Proof.
  intros N L W. apply nth_error_ext. intros i. destruct (Nat.lt_ge_cases i n) as [H|H].
  - rewrite !nth_error_firstn_lt by auto. rewrite (nth_error_nth' a 0), (nth_error_nth' b 0) by lia. f_equal. specialize (W (Z.of_nat i) ltac:(lia)). unfold word in W. rewrite Nat2Z.id in W. auto.
  - rewrite !nth_error_firstn_ge by auto. auto.
Qed.

Section W.
Context (src : list Z).
Hypothesis Ws : words src.
Definition wchunks (u : Z) : list chunk := [(2, Z.land u (2 ^ 24 - 1)); (3, Z.land (Z.shiftr u 24) (2 ^ 24 - 1)); (3, Z.shiftr (Z.shiftr u 24) 24)].
Fixpoint blk (p i : Z) (n : nat) : list chunk := match n with O => [] | S n => wchunks (word src (p + i)) ++ blk p (i + 1) n end.
Lemma wchunks_ok u : 0 <= u < 2 ^ 64 -> Forall cok (wchunks u).
Proof.
  intros U. unfold wchunks, cok. change (2 ^ 24 - 1) with (Z.ones 24). rewrite !Z.land_ones, !Z.shiftr_div_pow2 by lia. repeat (constructor; [cbn [fst snd]; lia|]). constructor.
Qed.
Lemma blk_ok p n : forall i, Forall cok (blk p i n).
Proof. induction n as [|n IH]; intros i; cbn [blk]; [constructor|]. apply Forall_app. split; auto. apply wchunks_ok. apply word_range. auto. Qed.
Lemma asum_app a b : asum (a ++ b) = asum a + asum b. Proof. induction a as [|c a IH]; auto. cbn [asum fold_right app]. fold (asum (a ++ b)) (asum a). lia. Qed.
Lemma blk_asum p n : forall i, asum (blk p i n) = 8 * Z.of_nat n.
Proof. induction n as [|n IH]; intros i; auto. cbn [blk]. rewrite asum_app, IH. change (asum (wchunks (word src (p + i)))) with 8. lia. Qed.
Lemma outs_app a b : forall t, outs_of (a ++ b) t = outs_of a t ++ outs_of b (t + asum a).
Proof. induction a as [|(c, q) a IH]; intros t; cbn [app outs_of]. - cbn [asum fold_right]. rewrite Z.add_0_r. auto. - rewrite IH, app_assoc. cbn [asum fold_right fst]. fold (asum a). rewrite Z.add_assoc. auto. Qed.
Lemma wchunks_outs u t : 0 <= u < 2 ^ 64 -> outs_of (wchunks u) t = map (fun k => 8 * (t + 2) + k) (ons (Z.testbit u) 0 64).
Proof.
  intros U. unfold wchunks. cbn [outs_of]. rewrite app_nil_r. change 64%nat with (24 + (24 + 16))%nat. rewrite !ons_app, !map_app, Z.add_0_l. change (Z.of_nat 24) with 24. f_equal; [|f_equal].
  - f_equal. apply ons_ext. intros k Hk. change (2 ^ 24 - 1) with (Z.ones 24). rewrite Z.land_spec, Z.ones_spec_low by lia. apply andb_true_r.
  - pose proof (ons_shift (Z.testbit u) 24 0 24) as E. rewrite Z.add_0_r in E. rewrite E, map_map. clear E. replace (ons (Z.testbit (Z.land (Z.shiftr u 24) (2 ^ 24 - 1))) 0 24) with (ons (fun k => Z.testbit u (24 + k)) 0 24). { apply map_ext. intros. lia. } apply ons_ext. intros k Hk. change (2 ^ 24 - 1) with (Z.ones 24). rewrite Z.land_spec, Z.ones_spec_low, Z.shiftr_spec, andb_true_r by lia. f_equal. lia.
  - pose proof (ons_shift (Z.testbit u) 48 0 16) as E. rewrite Z.add_0_r in E. change (24 + 24) with 48. rewrite E, map_map. clear E. rewrite (ons_high _ 16) by (rewrite ?Z.shiftr_div_pow2 by lia; lia). replace (ons (Z.testbit (Z.shiftr (Z.shiftr u 24) 24)) 0 (Z.to_nat 16)) with (ons (fun k => Z.testbit u (48 + k)) 0 16). { apply map_ext. intros. lia. } apply ons_ext. intros k Hk. rewrite !Z.shiftr_spec by lia. f_equal. lia.
Qed.
Lemma blk_outs p n : forall i T, 0 <= p + i -> outs_of (blk p i n) (T - 2 + 8 * i) = map (fun k => 8 * T + k) (ons (fun k => mbit src (64 * p + k)) (64 * i) (64 * n)).
Proof.
  induction n as [|n IH]; intros i T H. - rewrite Nat.mul_0_r, ons_0. reflexivity.
  - cbn [blk]. rewrite outs_app, wchunks_outs by (apply word_range; auto). rewrite Nat.mul_succ_r, Nat.add_comm, ons_app, zn64, map_app. f_equal.
    + rewrite word_ons by auto. rewrite map_map. apply map_ext. intros. lia.
    + change (asum (wchunks (word src (p + i)))) with 8. replace (T - 2 + 8 * i + 8) with (T - 2 + 8 * (i + 1)) by lia. rewrite IH by lia. do 2 f_equal. lia.
Qed.
Lemma fill_blk p b n : forall i st, 0 <= p + i -> p + i + Z.of_nat n <= len src ->
  for_ n i (fun i st => do u <- rdz src (p + i);
    do st <- bsp_add 2 (Z.land u (2 ^ 24 - 1)) b st; let u := Z.shiftr u 24 in
    do st <- bsp_add 3 (Z.land u (2 ^ 24 - 1)) b st; let u := Z.shiftr u 24 in
    bsp_add 3 u b st) st = fillM b (blk p i n) st.
Proof.
  induction n as [|n IH]; intros i st P L; auto. cbn [for_ blk]. rewrite rdz_ok by lia. unfold wchunks. cbn [app fillM bind]. destruct (bsp_add 2 _ b st) as [s1| |]; cbn [bind]; auto. destruct (bsp_add 3 _ b s1) as [s2| |]; cbn [bind]; auto. destruct (bsp_add 3 _ b s2) as [s3| |]; cbn [bind]; auto. apply IH; lia.
Qed.
Definition tail0 (p n : Z) : Prop := forall i, n <= i < 64 * ((n + 63) / 64) -> mbit src (64 * p + i) = false.
Lemma cut64 p n : 0 <= n -> tail0 p n -> ons (fun i => mbit src (64 * p + i)) 0 (64 * Z.to_nat ((n + 63) / 64)) = ons (fun i => mbit src (64 * p + i)) 0 (Z.to_nat n).
Proof. intros N T. apply cut; [lia|]. intros k Hk. apply T. lia. Qed.

Lemma bsp_ok p n off buf b : let g i := mbit src (64 * p + i) in let sum := cnt g 0 (Z.to_nat n) in
  0 <= p -> 0 <= n <= bsp_max -> p + (n + 63) / 64 <= len src -> tail0 p n -> 0 <= off < 2 ^ 42 -> off mod 64 = 0 -> 0 <= b -> b + sum < len buf -> (forall k, b <= k < b + sum -> word buf k = 0) ->
  exists buf', bsp_fill src p n buf b = Ok (buf', sum) /\ length buf' = length buf /\ (forall k, 0 <= k -> k < b \/ b + sum < k -> word buf' k = word buf k) /\
    forall tr dst r, 0 <= r -> r + sum <= len dst -> exists d', bsp_write tr buf' b sum off dst r = Ok d' /\ wrote dst r (map (fun k => tr (off + k)) (ons g 0 (Z.to_nat n))) d'.
Proof.
  intros g sum P N L T O Om B Lb Wz. assert (Mx : bsp_max = 1984) by reflexivity. set (m := Z.to_nat ((n + 63) / 64)).
  assert (Eo : outs_of (blk p 0 m) (off / 8 - 2) = map (fun k => off + k) (ons g 0 (Z.to_nat n))). { replace (off / 8 - 2) with (off / 8 - 2 + 8 * 0) by lia. rewrite blk_outs by lia. fold g. change (64 * 0) with 0. unfold m. unfold g. rewrite (cut64 p n) by (auto; lia). apply map_ext. intros. lia. }
  assert (El : len (evs (blk p 0 m) 0) = sum). { unfold len. rewrite (evs_len _ 0 (off / 8 - 2)) by apply blk_ok. rewrite Eo, map_length. reflexivity. }
  unfold bsp_fill. fold m. rewrite fill_blk by (unfold m; lia). unfold len in El. destruct (fillM_ok b (blk p 0 m) 0 buf 0) as (buf'&E&Lb'&Wi&Wo); try lia. { apply blk_ok. } { rewrite blk_asum. unfold m. lia. } { intros Hn. rewrite El in Hn. rewrite Z.add_0_r, Wz; lia. } { rewrite El. intros i Hi. apply Wz. lia. }
  rewrite El, Z.add_0_l in *. exists buf'. split; auto. split; auto. split. { intros k K Hk. apply Wo; lia. }
  intros tr dst r R Ld. fold (len (evs (blk p 0 m) 0)) in El. rewrite <- El. rewrite bsp_write_wl.
  - destruct (wl_ok tr (blk p 0 m) 0 (off / 8 - 2) ((off * 2 ^ 21 - 2 * 2 ^ 24) mod 2 ^ 64) r dst) as (t'&d'&E1&W1); [apply blk_ok|lia|f_equal; lia|lia| |rewrite blk_asum; unfold m; lia|exact R| |]. { intros _. destruct m; cbn [blk wchunks app]; [exact I|]. cbn [fst]. lia. } { rewrite Z.add_0_r, Eo. unfold len. rewrite !map_length. exact Ld. }
    rewrite E1. cbn [bind snd]. exists d'. split; auto. rewrite Z.add_0_r, Eo, map_map in W1. exact W1.
  - lia.
  - rewrite El. unfold len in *. rewrite Lb'. lia.
  - rewrite El. intros i Hi. replace (b + i) with (b + 0 + i) by lia. rewrite Wi by lia. auto.
Qed.

Lemma bsp_block_ok tr p n off dst r : let g i := mbit src (64 * p + i) in let sum := cnt g 0 (Z.to_nat n) in
  0 <= p -> 0 <= n <= bsp_max -> p + (n + 63) / 64 <= len src -> tail0 p n -> 0 <= off < 2 ^ 42 -> off mod 64 = 0 -> 0 <= r -> r + sum < len dst ->
  exists d', bsp_block src tr p n sum off dst r = Ok d' /\ wrote dst r (map (fun k => tr (off + k)) (ons g 0 (Z.to_nat n))) d'.
Proof.
  intros g sum P N L T O Om R Lb. unfold bsp_block. pose proof (cnt_nonneg g 0 (Z.to_nat n)) as C0. fold sum in C0. destruct (zero_buf_ok dst r sum R C0 ltac:(lia)) as (b0&E0&L0&W0). rewrite E0. cbn [bind].
  destruct (bsp_ok p n off b0 r P N L T O Om R) as (b1&E1&L1&Wo&Wr). { unfold len in *. rewrite L0. exact Lb. } { intros k Hk. rewrite W0 by lia. fold g sum in Hk. destruct (Z.leb_spec r k), (Z.ltb_spec k (r + sum)); cbn [andb]; auto; lia. }
  fold g sum in E1, Wo, Wr. rewrite E1. cbn [bind]. destruct (Wr tr b1 r R) as (d'&E&(Ld&Fd&_&Ld2)). { unfold len in *. rewrite L1, L0. lia. } exists d'. split; auto. split; [congruence|]. split.
  - rewrite Fd. f_equal. apply firstn_word; unfold len in *; [lia|congruence|]. intros k Hk. rewrite Wo by lia. rewrite W0 by lia. destruct (Z.leb_spec r k); cbn [andb]; auto; lia.
  - unfold len in *. rewrite map_length in *. rewrite L1, L0 in Ld2. lia.
Qed.
End W.
