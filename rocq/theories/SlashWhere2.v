From Verif Require Import Base ListLib BitsModel BitsSpec BitsProof BitsProof2 SqueezeModel SqueezeProof WidenModel SearchModel SlashModel SlashProof SlashBsp SlashWhere.
From Coq Require Import List.

Lemma ts_id k z : 0 < k -> 0 <= z < 2 ^ (k - 1) -> to_s k z = z.
Proof. intros K H. unfold to_s. assert (E : 2 ^ k = 2 * 2 ^ (k - 1)) by (rewrite <- Z.pow_succ_r by lia; f_equal; lia). rewrite Z.mod_small; lia. Qed.
Lemma tu_id k z : 0 <= z < 2 ^ k -> to_u k z = z. Proof. intros H. unfold to_u. apply Z.mod_small; auto. Qed.
Lemma map_id_in {A} (f : A -> A) l : (forall a, In a l -> f a = a) -> map f l = l.
Proof. intros H. rewrite <- (map_id l) at 2. apply map_ext_in. auto. Qed.
Lemma wrote_full d l d' : wrote d 0 l d' -> len l = len d -> d' = l.
Proof. intros W L. pose proof (wrote_all _ _ _ W) as F. destruct W as (Ld&_). unfold len in L. rewrite <- F. rewrite firstn_all2; auto. lia. Qed.
Lemma len_mem junk n : 0 <= n -> len (mem junk n) = n. Proof. intros H. unfold len, mem. rewrite repeat_length. lia. Qed.
Lemma ons_cnt_len g a n : len (ons g a n) = cnt g a n. Proof. reflexivity. Qed.

Lemma cnt_z g a : cnt g a (Z.to_nat 0) = 0. Proof. unfold cnt. change (Z.to_nat 0) with 0%nat. rewrite ons_0. reflexivity. Qed.
Lemma mask_tail_ok src n : words src -> 0 <= n <= 64 * len src -> exists src', mask_tail src n = Ok src' /\ words src' /\ length src' = length src /\ (forall i, 0 <= i < n -> mbit src' i = mbit src i) /\ (forall i, n <= i < 64 * ((n + 63) / 64) -> mbit src' i = false).
Proof.
  intros Ws N. unfold mask_tail. destruct (Z.eqb_spec (n mod 64) 0) as [E|E]. - exists src. split; auto. split; auto. split; auto. split; auto. intros i Hi. lia.
  - rewrite rdz_ok by lia. cbn [bind]. rewrite wrz_ok by lia. rewrite shl1 by lia. change (2 ^ (n mod 64) - 1) with (2 ^ (n mod 64) + - 1). replace (2 ^ (n mod 64) + - 1) with (Z.ones (n mod 64)) by (rewrite Z.ones_equiv; lia).
    eexists. split; [reflexivity|]. assert (R : 0 <= Z.land (word src (n / 64)) (Z.ones (n mod 64)) < 2 ^ 64). { pose proof (word_range src (n / 64) Ws). apply bits_range; [lia|]. intros i Hi. rewrite Z.land_spec, (range_bits (word src (n / 64)) 64 i) by lia. reflexivity. }
    split; [apply words_upd; auto|]. split; [apply upd_length|]. split.
    + intros i Hi. rewrite mbit_upd by lia. destruct (Z.eqb_spec (i / 64) (n / 64)) as [Q|Q]; auto. rewrite Z.land_spec. rewrite Z.ones_spec_low by lia. rewrite andb_true_r. rewrite mbit_split by lia. rewrite Q. auto.
    + intros i Hi. rewrite mbit_upd by lia. destruct (Z.eqb_spec (i / 64) (n / 64)) as [Q|Q]; [|lia]. rewrite Z.land_spec. rewrite Z.ones_spec_high by lia. apply andb_false_r.
Qed.

Section W2.
Context (src : list Z).
Hypothesis Ws : words src.
Let g0 (i : Z) := mbit src i.
Lemma gshift p a n : ons (fun i => mbit src (64 * p + i)) a n = map (fun k => k - 64 * p) (ons g0 (64 * p + a) n).
Proof. rewrite ons_shift, map_map. unfold g0. symmetry. apply map_id_in. intros. lia. Qed.
Lemma gcnt p n : cnt (fun i => mbit src (64 * p + i)) 0 n = cnt g0 (64 * p) n.
Proof. unfold cnt. rewrite gshift, map_length, Z.add_0_r. auto. Qed.
Lemma goff p n : map (fun k => 64 * p + k) (ons (fun i => mbit src (64 * p + i)) 0 n) = ons g0 (64 * p) n.
Proof. rewrite gshift, map_map, Z.add_0_r. apply map_id_in. intros. lia. Qed.

Lemma sparse_ok tr p n dst r : 0 <= p -> 0 <= n -> p + (n + 63) / 64 <= len src -> tail0 src p n -> let g i := mbit src (64 * p + i) in 0 <= r -> r + cnt g 0 (Z.to_nat n) <= len dst ->
  exists d', where_sparse src tr (S (length src)) p (cnt g 0 (Z.to_nat n)) dst r 0 0 = Ok d' /\ wrote dst r (map (fun k => tr (0 + k)) (ons g 0 (Z.to_nat n))) d'.
Proof.
  intros P N L T g R C. pose proof (cut64 src p n ltac:(lia) T) as E. fold g in E. destruct (where_sparse_ok src tr Ws p r (Z.to_nat ((n + 63) / 64)) (S (length src)) 0 0 dst (cnt g 0 (Z.to_nat n))) as (d'&E1&W); auto; try lia.
  - change (64 * 0) with 0. fold g. unfold cnt. rewrite E. lia.
  - unfold len in L. lia.
  - exists d'. split; auto. change (64 * 0) with 0 in W. fold g in W. rewrite E, Z.add_0_r in W. exact W.
Qed.

Lemma where_block_ok junk p n : 0 <= p -> 0 <= n <= bsp_max -> p + (n + 63) / 64 <= len src -> tail0 src p n -> let g i := mbit src (64 * p + i) in
  where_block junk src p n (cnt g 0 (Z.to_nat n)) bsp_max = Ok (ons g 0 (Z.to_nat n)).
Proof.
  intros P N L T g. assert (Mx : bsp_max = 1984) by reflexivity. unfold where_block. set (sum := cnt g 0 (Z.to_nat n)). pose proof (cnt_nonneg g 0 (Z.to_nat n)) as C0. pose proof (cnt_le g 0 (Z.to_nat n)) as C1. fold sum in C0, C1.
  assert (Id : map (fun k => to_u 16 (0 + k)) (ons g 0 (Z.to_nat n)) = ons g 0 (Z.to_nat n)). { apply map_id_in. intros k Hk. apply ons_in in Hk. rewrite Z.add_0_l. apply tu_id. lia. }
  assert (Fin : forall d, wrote (mem junk bsp_max) 0 (ons g 0 (Z.to_nat n)) d -> firstn (Z.to_nat sum) d = ons g 0 (Z.to_nat n)). { intros d W. apply wrote_all in W. unfold sum, cnt. rewrite Nat2Z.id. exact W. }
  destruct (Z.leb_spec (n / 4 + n / 8) sum); [|destruct (Z.leb_spec (n / 128) sum)].
  - destruct (where_dense_ok src (to_u 16) p n 0 (mem junk bsp_max) 0 P ltac:(lia) ltac:(lia) L T) as (d&E&W). { rewrite len_mem by lia. left. lia. } fold g in E, W. rewrite E. cbn [bind]. rewrite Id in W. rewrite (Fin d W). auto.
  - destruct (zero_buf_ok (mem junk (bsp_max / 2)) 0 sum ltac:(lia) C0) as (b0&E0&L0&W0). { rewrite len_mem by lia. lia. } rewrite E0. cbn [bind]. pose proof (len_mem junk (bsp_max / 2) ltac:(lia)) as Lm.
    destruct (bsp_ok src Ws p n 0 b0 0 P N L T ltac:(lia) ltac:(reflexivity) ltac:(lia)) as (b1&E1&L1&Wo&Wr). { fold g sum. unfold len in *. rewrite L0. lia. } { fold g sum. intros k Hk. rewrite W0 by lia. destruct (Z.leb_spec 0 k), (Z.ltb_spec k (0 + sum)); cbn [andb]; auto; lia. }
    fold g sum in E1, Wr. rewrite E1. cbn [bind]. destruct (Wr (to_u 16) (mem junk bsp_max) 0 ltac:(lia)) as (d&E&W). { rewrite len_mem by lia. lia. } rewrite E. cbn [bind]. rewrite Id in W. rewrite (Fin d W). auto.
  - destruct (sparse_ok (to_u 16) p n (mem junk bsp_max) 0 P ltac:(lia) L T ltac:(lia)) as (d&E&W). { fold g sum. rewrite len_mem by lia. lia. } fold g sum in E, W. rewrite E. cbn [bind]. rewrite Id in W. rewrite (Fin d W). auto.
Qed.

Context (xia s : Z).
Hypothesis X0 : 0 <= xia.
Hypothesis Xl : (xia + 63) / 64 <= len src.
Hypothesis T0 : forall i, xia <= i < 64 * ((xia + 63) / 64) -> mbit src i = false.
Hypothesis Sm : s = cnt g0 0 (Z.to_nat xia).
Lemma block_tail i b : 0 <= i -> i mod 64 = 0 -> (b = xia - i \/ b = bsp_max) -> i < xia -> 0 <= b <= bsp_max -> i + b <= xia -> tail0 src (i / 64) b.
Proof. intros I Im B Ix Bx Bl k Hk. assert (Mx : bsp_max = 1984) by reflexivity. apply T0. lia. Qed.
Lemma pre_cnt i b : 0 <= i -> 0 <= b -> i + b <= xia -> cnt g0 0 (Z.to_nat (i + b)) = cnt g0 0 (Z.to_nat i) + cnt g0 i (Z.to_nat b) /\ cnt g0 0 (Z.to_nat (i + b)) <= s.
Proof.
  intros I B L. split. - rewrite Z2Nat.inj_add by lia. rewrite cnt_app, Z.add_0_l, Z2Nat.id by lia. auto.
  - rewrite Sm. replace (Z.to_nat xia) with (Z.to_nat (i + b) + Z.to_nat (xia - (i + b)))%nat by lia. rewrite cnt_app. pose proof (cnt_nonneg g0 (0 + Z.of_nat (Z.to_nat (i + b))) (Z.to_nat (xia - (i + b)))). lia.
Qed.
Lemma pre_ons i b : 0 <= i -> 0 <= b -> ons g0 0 (Z.to_nat (i + b)) = ons g0 0 (Z.to_nat i) ++ ons g0 i (Z.to_nat b).
Proof. intros I B. rewrite Z2Nat.inj_add by lia. rewrite ons_app, Z.add_0_l, Z2Nat.id by lia. auto. Qed.
Lemma block_sum i b : 0 <= i -> i mod 64 = 0 -> b = (if xia - i <? bsp_max then xia - i else bsp_max) -> i < xia ->
  (if xia - i <? bsp_max then Ok (s - cnt g0 0 (Z.to_nat i)) else bit_sum src (i / 64) b) = Ok (cnt g0 i (Z.to_nat b)).
Proof.
  intros I Im B L. assert (Mx : bsp_max = 1984) by reflexivity. destruct (Z.ltb_spec (xia - i) bsp_max); subst b.
  - destruct (pre_cnt i (xia - i) I ltac:(lia) ltac:(lia)) as (E&_). replace (i + (xia - i)) with xia in E by lia. rewrite <- Sm in E. f_equal. lia.
  - rewrite bit_sum_spec by (unfold len in *; lia). rewrite count_cnt, gcnt. do 2 f_equal. lia.
Qed.
Lemma block_b i b : 0 <= i < xia -> i mod 64 = 0 -> b = (if xia - i <? bsp_max then xia - i else bsp_max) -> 0 < b <= bsp_max /\ i + b <= xia /\ tail0 src (i / 64) b /\ i / 64 + (b + 63) / 64 <= len src /\ (i + b = xia \/ (i + b) mod 64 = 0) /\ 64 * (i / 64) = i.
Proof.
  intros I Im B. assert (Mx : bsp_max = 1984) by reflexivity. assert (Q : b = xia - i /\ xia - i < 1984 \/ b = 1984 /\ 1984 <= xia - i) by (destruct (Z.ltb_spec (xia - i) bsp_max); lia). clear B.
  split; [lia|]. split; [lia|]. split; [apply block_tail; lia|]. split; [lia|]. split; lia.
Qed.

Lemma where_f64_ok junk : forall fuel i, 0 <= i <= xia -> (i = xia \/ i mod 64 = 0) -> xia - i <= 64 * Z.of_nat fuel -> where_f64 junk fuel src xia s i (ons g0 0 (Z.to_nat i)) = Ok (ons g0 0 (Z.to_nat xia)).
Proof.
  assert (Mx : bsp_max = 1984) by reflexivity. induction fuel as [|f IH]; intros i I Im F; cbn [where_f64]; (destruct (Z.leb_spec xia i); [replace i with xia by lia; auto|]); [lia|].
  set (b := if xia - i <? bsp_max then xia - i else bsp_max). destruct (block_b i b ltac:(lia) ltac:(lia) eq_refl) as (B1&B2&B3&B4&B5&B6). fold (len (ons g0 0 (Z.to_nat i))). rewrite ons_cnt_len. rewrite block_sum by (auto; lia). cbn [bind].
  pose proof (where_block_ok junk (i / 64) b ltac:(lia) ltac:(lia) B4 B3) as Wb. cbv zeta in Wb. rewrite gcnt, B6 in Wb. rewrite Wb. cbn [bind]. pose proof (goff (i / 64) (Z.to_nat b)) as Go. rewrite B6 in Go. 
  assert (Go' : map (fun k => i + k) (ons (fun k => mbit src (64 * (i / 64) + k)) 0 (Z.to_nat b)) = ons g0 i (Z.to_nat b)) by (rewrite B6; exact Go).
  rewrite B6 in Go'. rewrite Go', <- pre_ons by lia. apply IH; lia.
Qed.

Lemma where_i32_ok : xia <= 2 ^ 31 -> forall fuel i dst, 0 <= i <= xia -> (i = xia \/ i mod 64 = 0) -> xia - i <= 64 * Z.of_nat fuel -> len dst = s + 1 -> firstn (Z.to_nat (cnt g0 0 (Z.to_nat i))) dst = ons g0 0 (Z.to_nat i) ->
  exists d, where_i32 fuel src xia s i dst (cnt g0 0 (Z.to_nat i)) = Ok d /\ firstn (Z.to_nat s) d = ons g0 0 (Z.to_nat xia).
Proof.
  intros Xb. assert (Mx : bsp_max = 1984) by reflexivity. induction fuel as [|f IH]; intros i dst I Im F Ld Fd; cbn [where_i32]; (destruct (Z.leb_spec xia i); [replace i with xia in * by lia; exists dst; rewrite Sm; auto|]); [lia|].
  set (b := if xia - i <? bsp_max then xia - i else bsp_max). destruct (block_b i b ltac:(lia) ltac:(lia) eq_refl) as (B1&B2&B3&B4&B5&B6). rewrite block_sum by (auto; lia). cbn [bind].
  destruct (pre_cnt i b ltac:(lia) ltac:(lia) B2) as (Pc&Pl). pose proof (cnt_nonneg g0 0 (Z.to_nat i)) as C0. pose proof (cnt_nonneg g0 i (Z.to_nat b)) as C1. set (r := cnt g0 0 (Z.to_nat i)) in *. set (bs := cnt g0 i (Z.to_nat b)) in *.
  assert (Gc : cnt (fun k => mbit src (64 * (i / 64) + k)) 0 (Z.to_nat b) = bs) by (rewrite gcnt, B6; auto).
  assert (Go : map (fun k => to_s 32 (i + k)) (ons (fun k => mbit src (64 * (i / 64) + k)) 0 (Z.to_nat b)) = ons g0 i (Z.to_nat b)). { pose proof (goff (i / 64) (Z.to_nat b)) as Go. rewrite B6 in Go |- *. rewrite <- (map_map (fun k => i + k) (to_s 32)). rewrite Go. apply map_id_in. intros k Hk. apply ons_in in Hk. apply ts_id; [lia|]. change (2 ^ (32 - 1)) with (2 ^ 31). lia. }
  assert (D : exists d, (if b / 2 <=? bs then do (d, _) <- where_dense src (to_s 32) (i / 64) b i dst r; Ok d
               else if b / 256 <=? bs then bsp_block src (to_s 32) (i / 64) b bs i dst r
               else where_sparse src (to_s 32) (S (length src)) 0 bs dst r (i / 64) 0) = Ok d /\ wrote dst r (ons g0 i (Z.to_nat b)) d).
  { destruct (Z.leb_spec (b / 2) bs); [|destruct (Z.leb_spec (b / 256) bs)].
    - destruct (where_dense_ok src (to_s 32) (i / 64) b i dst r ltac:(lia) ltac:(lia) C0 B4 B3) as (d&E&W). { right. rewrite Gc. lia. } rewrite E. cbn [bind]. rewrite Go in W. exists d. auto.
    - destruct (bsp_block_ok src Ws (to_s 32) (i / 64) b i dst r ltac:(lia) ltac:(lia) B4 B3 ltac:(lia) ltac:(lia) C0) as (d&E&W). { rewrite Gc. lia. } rewrite Gc, Go in *. exists d. auto.
    - pose proof (cut64 src (i / 64) b ltac:(lia) B3) as Ct.
      assert (Ct' : ons (fun k => mbit src (64 * 0 + k)) (64 * (i / 64)) (64 * Z.to_nat ((b + 63) / 64)) = ons g0 i (Z.to_nat b)). { pose proof (goff (i / 64) (64 * Z.to_nat ((b + 63) / 64))) as G1. rewrite Ct in G1. rewrite (goff (i / 64) (Z.to_nat b)) in G1. rewrite B6 in *. rewrite G1. apply ons_ext. intros k Hk. unfold g0. f_equal. }
      destruct (where_sparse_ok src (to_s 32) Ws 0 r (Z.to_nat ((b + 63) / 64)) (S (length src)) (i / 64) 0 dst bs ltac:(lia) ltac:(lia) C0 ltac:(lia)) as (d&E&W). { unfold cnt. rewrite Ct'. unfold bs, cnt. lia. } { lia. } { unfold len in B4. lia. } { lia. }
      rewrite Ct', Z.add_0_r in W. exists d. split; auto. replace (map (fun k => to_s 32 (0 + k)) (ons g0 i (Z.to_nat b))) with (ons g0 i (Z.to_nat b)) in W; auto. symmetry. apply map_id_in. intros k Hk. apply ons_in in Hk. apply ts_id; [lia|]. change (2 ^ (32 - 1)) with (2 ^ 31). lia. }
  destruct D as (d&E&W). rewrite E. cbn [bind]. rewrite <- Pc. destruct W as (L1&F1&_&_). apply IH; try lia.
  - unfold len in *. rewrite L1. auto.
  - rewrite pre_ons by lia. rewrite <- Fd. rewrite ons_cnt_len in F1. fold bs in F1. rewrite Pc. exact F1.
Qed.

Lemma bsp_u16_ok : xia <= 2 ^ 15 -> forall fuel i buf dst, 0 <= i <= xia -> (i = xia \/ i mod 64 = 0) -> xia - i <= 64 * Z.of_nat fuel -> len dst = s -> firstn (Z.to_nat (cnt g0 0 (Z.to_nat i))) dst = ons g0 0 (Z.to_nat i) ->
  len buf = Z.min bsp_max s + 1 -> (forall k, 0 <= k < Z.min bsp_max s -> word buf k = 0) ->
  bsp_u16 fuel src xia i buf dst (cnt g0 0 (Z.to_nat i)) = Ok (ons g0 0 (Z.to_nat xia)).
Proof.
  intros Xb. assert (Mx : bsp_max = 1984) by reflexivity. induction fuel as [|f IH]; intros i buf dst I Im F Ld Fd Lb Wb; cbn [bsp_u16]; (destruct (Z.leb_spec xia i); [replace i with xia in * by lia; rewrite <- Sm in Fd; rewrite <- Fd; rewrite firstn_all2 by (unfold len in Ld; lia); auto|]); [lia|].
  set (b := if xia - i <? bsp_max then xia - i else bsp_max). destruct (block_b i b ltac:(lia) ltac:(lia) eq_refl) as (B1&B2&B3&B4&B5&B6).
  destruct (pre_cnt i b ltac:(lia) ltac:(lia) B2) as (Pc&Pl). pose proof (cnt_nonneg g0 0 (Z.to_nat i)) as C0. pose proof (cnt_nonneg g0 i (Z.to_nat b)) as C1. pose proof (cnt_le g0 i (Z.to_nat b)) as C2. set (r := cnt g0 0 (Z.to_nat i)) in *. set (bs := cnt g0 i (Z.to_nat b)) in *.
  assert (Gc : cnt (fun k => mbit src (64 * (i / 64) + k)) 0 (Z.to_nat b) = bs) by (rewrite gcnt, B6; auto).
  assert (Go : map (fun k => to_u 16 (i + k)) (ons (fun k => mbit src (64 * (i / 64) + k)) 0 (Z.to_nat b)) = ons g0 i (Z.to_nat b)). { pose proof (goff (i / 64) (Z.to_nat b)) as Go. rewrite B6 in Go |- *. rewrite <- (map_map (fun k => i + k) (to_u 16)). rewrite Go. apply map_id_in. intros k Hk. apply ons_in in Hk. apply tu_id. lia. }
  destruct (bsp_ok src Ws (i / 64) b i buf 0 ltac:(lia) ltac:(lia) B4 B3 ltac:(lia) ltac:(lia) ltac:(lia)) as (b1&E1&L1&Wo&Wr). { rewrite Gc. lia. } { rewrite Gc. intros k Hk. apply Wb. lia. }
  rewrite Gc in *. rewrite E1. cbn [bind]. destruct (Wr (to_u 16) dst r C0) as (d&E&W). { lia. } rewrite E. cbn [bind]. rewrite Go in W. assert (Lb1 : len b1 = len buf) by (unfold len; rewrite L1; auto).
  destruct (zero_buf_ok b1 0 bs ltac:(lia) C1) as (b2&E2&L2&W2). { lia. } rewrite E2. cbn [bind]. assert (Lb2 : len b2 = len b1) by (unfold len; rewrite L2; auto). rewrite wrz_ok by lia. cbn [bind]. rewrite <- Pc. destruct W as (Lw&Fw&_&_). apply IH; try lia.
  - unfold len in *. rewrite Lw. auto.
  - rewrite pre_ons by lia. rewrite <- Fd. rewrite ons_cnt_len in Fw. fold bs in Fw. rewrite Pc. exact Fw.
  - rewrite len_upd. lia.
  - intros k Hk. rewrite word_upd by lia. destruct (Z.eqb_spec k bs); auto. rewrite W2 by lia. destruct (Z.leb_spec 0 k), (Z.ltb_spec k (0 + bs)); cbn [andb]; auto; try lia. rewrite Wo by lia. apply Wb. lia.
Qed.
End W2.

(** the positions of the set bits among the first xia *)
Theorem where_ok junk src xia : words src -> 0 <= xia <= 64 * len src -> where_ junk src xia (cnt (mbit src) 0 (Z.to_nat xia)) = Ok (ons (mbit src) 0 (Z.to_nat xia)).
Proof.
  intros Ws0 X. assert (Mx : bsp_max = 1984) by reflexivity. unfold where_. destruct (mask_tail_ok src xia Ws0 X) as (src'&E&Ws&L&Sa&Tz). rewrite E. cbn [bind].
  assert (Eo : ons (mbit src) 0 (Z.to_nat xia) = ons (mbit src') 0 (Z.to_nat xia)) by (apply ons_ext; intros k Hk; symmetry; apply Sa; lia). assert (Ec : cnt (mbit src) 0 (Z.to_nat xia) = cnt (mbit src') 0 (Z.to_nat xia)) by (unfold cnt; rewrite Eo; auto). rewrite Eo, Ec. clear Eo Ec Sa.
  assert (Xl : (xia + 63) / 64 <= len src') by (unfold len in *; rewrite L; lia). assert (Fu : xia - 0 <= 64 * Z.of_nat (S (length src'))) by (unfold len in *; lia). destruct X as [X _]. clear L E Ws0 src. rename src' into src.
  assert (Tz' : tail0 src 0 xia) by (intros i Hi; rewrite Z.mul_0_r, Z.add_0_l; apply Tz; auto). set (s := cnt (mbit src) 0 (Z.to_nat xia)). pose proof (cnt_nonneg (mbit src) 0 (Z.to_nat xia)) as C0. fold s in C0.
  assert (Gc : cnt (fun i => mbit src (64 * 0 + i)) 0 (Z.to_nat xia) = s) by reflexivity. assert (Go : ons (fun i => mbit src (64 * 0 + i)) 0 (Z.to_nat xia) = ons (mbit src) 0 (Z.to_nat xia)) by (apply ons_ext; intros; f_equal; lia).
  assert (Id : forall k, 0 < k -> xia <= 2 ^ (k - 1) -> map (fun i => to_s k (0 + i)) (ons (mbit src) 0 (Z.to_nat xia)) = ons (mbit src) 0 (Z.to_nat xia)). { intros k K Hx. apply map_id_in. intros i Hi. apply ons_in in Hi. rewrite Z.add_0_l. apply ts_id; lia. }
  assert (Sp : forall k, 0 < k -> xia <= 2 ^ (k - 1) -> where_sparse src (to_s k) (S (length src)) 0 s (mem junk s) 0 0 0 = Ok (ons (mbit src) 0 (Z.to_nat xia))). { intros k K Hx. destruct (sparse_ok src Ws (to_s k) 0 xia (mem junk s) 0 ltac:(lia) X ltac:(lia) Tz' ltac:(lia)) as (d&E&W). { rewrite Gc, len_mem by lia. lia. } rewrite Gc, Go in *. rewrite E. f_equal. rewrite Id in W by auto. apply (wrote_full _ _ _ W). rewrite ons_cnt_len, len_mem by lia. auto. }
  destruct (Z.leb_spec xia 128). { apply Sp; lia. } destruct (Z.leb_spec xia 32768).
  - destruct (Z.leb_spec (xia / 4 + xia / 8) s); [|destruct (Z.leb_spec (xia / 128) s)]; [| |apply Sp; lia].
    + destruct (where_dense_ok src (to_s 16) 0 xia 0 (mem junk (s + 1)) 0 ltac:(lia) X ltac:(lia) ltac:(lia) Tz') as (d&E&W). { rewrite len_mem by lia. right. rewrite Gc. lia. } rewrite E. cbn [bind]. rewrite Go, Id in W by lia. f_equal. unfold s, cnt. rewrite Nat2Z.id. apply (wrote_all _ _ _ W).
    + pose proof (bsp_u16_ok src Ws xia s Xl Tz eq_refl ltac:(lia) (S (length src)) 0 (repeat 0 (Z.to_nat (Z.min bsp_max s)) ++ [junk]) (mem junk s) ltac:(lia) (or_intror eq_refl) Fu (len_mem junk s C0) eq_refl) as B.
      rewrite cnt_z in B. rewrite B. * cbn [bind]. f_equal. apply (Id 16); lia. * unfold len. rewrite app_length, repeat_length. cbn [length]. lia.
      * intros k Hk. unfold word. rewrite app_nth1 by (rewrite repeat_length; lia). apply nth_repeat.
  - destruct (Z.leb_spec xia (2 ^ 31)).
    + destruct (where_i32_ok src Ws xia s Xl Tz eq_refl ltac:(lia) (S (length src)) 0 (mem junk (s + 1)) ltac:(lia) (or_intror eq_refl) Fu (len_mem junk (s + 1) ltac:(lia)) eq_refl) as (d&E&W). rewrite cnt_z in E. rewrite E. cbn [bind]. rewrite W. auto.
    + apply (where_f64_ok src Ws xia s Xl Tz eq_refl junk (S (length src)) 0 ltac:(lia) (or_intror eq_refl) Fu).
Qed.
