From Verif Require Import Base ListLib BitsModel BitsSpec BitsProof BitsProof2 SqueezeModel SqueezeProof WidenModel SlashModel SlashModel2 SlashSpec SlashInd SlashThm SelectModel ArithModel ArithSpec ArithProof ArithProof2 ArithProof3 FoldModel FoldSpec FoldProof FoldProof2 FoldProof3 ScanModel ScanProof ScanProof2.
From Coq Require Import List Lia.
Open Scope Z_scope.

Lemma negate_ok xp n : words xp -> 0 <= n <= 64 * len xp -> exists r, negate xp n = Ok r /\ length r = nwords n /\ words r /\ forall k, 0 <= k < 64 * Z.of_nat (nwords n) -> mbit r k = negb (mbit xp k).
Proof.
  intros W N. destruct (nwords_le xp n N) as [N1 N2]. unfold negate.
  assert (G : forall m i acc, 0 <= i -> i + Z.of_nat m <= len xp -> for_ m i (fun i r => do a <- rdz xp i; Ok (r ++ [not64 a])) acc = Ok (acc ++ map (fun j => not64 (word xp (i + Z.of_nat j))) (seq 0 m))).
  { induction m as [|m IH]; intros i acc I L; cbn [for_ seq map]; [rewrite app_nil_r; reflexivity|]. rewrite rdz_ok by lia. cbn [bind]. rewrite IH by lia. rewrite <- app_assoc. cbn [app]. rewrite Z.add_0_r. do 3 f_equal. rewrite <- seq_shift, map_map. apply map_ext. intros j. do 2 f_equal. lia. }
  rewrite G by lia. cbn [app]. eexists. split; [reflexivity|]. assert (L : length (map (fun j => not64 (word xp (0 + Z.of_nat j))) (seq 0 (nwords n))) = nwords n) by (rewrite map_length, seq_length; reflexivity). split; [exact L|]. split.
  { apply Forall_forall. intros z H. apply in_map_iff in H. destruct H as (j & <- & _). apply not64_range, word_range, W. }
  intros k K. rewrite !mbit_split. assert (E : word (map (fun j => not64 (word xp (0 + Z.of_nat j))) (seq 0 (nwords n))) (k / 64) = not64 (word xp (k / 64))).
  { unfold word at 1. rewrite (nth_indep _ 0 ((fun j => not64 (word xp (0 + Z.of_nat j))) O)) by (rewrite L; lia). rewrite (map_nth (fun j => not64 (word xp (0 + Z.of_nat j)))). rewrite seq_nth by lia. do 2 f_equal. lia. }
  rewrite E, tb_not64 by lia. replace (k mod 64 <? 64) with true by lia. destruct (Z.testbit _ _); reflexivity.
Qed.
Lemma flip0_ok xp : words xp -> 0 < len xp -> exists r, flip0 xp = Ok r /\ length r = length xp /\ words r /\ forall k, 0 <= k -> mbit r k = xorb (k =? 0) (mbit xp k).
Proof.
  intros W L. unfold flip0. rewrite rdz_ok by lia. cbn [bind]. rewrite wrz_ok by lia. eexists. split; [reflexivity|]. split; [pose proof (len_upd xp (Z.to_nat 0) (Z.lxor (word xp 0) 1)) as E; unfold len in E; lia|]. pose proof (word_range xp 0 W) as R. split; [apply words_upd; auto; apply lxor_range; auto; lia|].
  intros k K. rewrite mbit_upd by lia. destruct (Z.eqb_spec (k / 64) 0) as [E|E].
  - rewrite Z.lxor_spec. rewrite mbit_split, E. rewrite xorb_comm. f_equal. change 1 with (2 ^ 0). rewrite Z.pow2_bits_eqb by lia. destruct (Z.eqb_spec 0 (k mod 64)), (Z.eqb_spec k 0); auto; lia.
  - replace (k =? 0) with false by lia. destruct (mbit xp k); reflexivity.
Qed.
(** results of bits *)
Definition sres (p : prim) (w : option Z) (x : arr) (r : res arr) : Prop := exists a, r = Ok a /\ arr_ok a /\ vals a = match w with None => scan1 (prim_op p) (vals x) | Some w => scanl (prim_op p) w (vals x) end.
Lemma sres_bits p xp n r (f : bool -> bool -> bool) c : arr_ok (AB xp n) -> length r = nwords n -> words r -> p <> PO OAdd -> p <> PO OSub ->
  (forall k, 0 <= k < 64 * Z.of_nat (nwords n) -> mbit r k = f (if k =? 0 then c else mbit r (k - 1)) (mbit xp k)) -> (forall a b, f a b = bop p a b) -> sres p (Some (b2z c)) (AB xp n) (Ok (AB r n)).
Proof.
  intros [W N] L Wr P1 P2 H F. destruct (nwords_le xp n N) as [N1 N2]. exists (AB r n). split; [reflexivity|]. split; [split; [auto|lia]|]. rewrite !vals_bits. rewrite <- (scanl_map f _ b2z). 2: { intros a b. rewrite F. apply bop_ok; auto. } f_equal. apply scanl_bits. intros k K. apply H. lia.
Qed.
Lemma sres_bits1 p xp n r (f : bool -> bool -> bool) : arr_ok (AB xp n) -> length r = nwords n -> words r -> p <> PO OAdd -> p <> PO OSub ->
  (forall k, 0 <= k < 64 * Z.of_nat (nwords n) -> mbit r k = if k =? 0 then mbit xp k else f (mbit r (k - 1)) (mbit xp k)) -> (forall a b, f a b = bop p a b) -> sres p None (AB xp n) (Ok (AB r n)).
Proof.
  intros [W N] L Wr P1 P2 H F. destruct (nwords_le xp n N) as [N1 N2]. exists (AB r n). split; [reflexivity|]. split; [split; [auto|lia]|]. rewrite !vals_bits. rewrite <- (scan1_map f _ b2z). 2: { intros a b. rewrite F. apply bop_ok; auto. } f_equal.
  pose proof (len_bits xp 0 n) as L1. pose proof (len_bits r 0 n) as L2. destruct (bits_of xp 0 n) as [|b lb] eqn:EX; [destruct (bits_of r 0 n); [reflexivity|cbn in *; lia]|]. destruct (bits_of r 0 n) as [|a la] eqn:ER; [cbn in *; lia|].
  assert (G : forall k, (k < Z.to_nat n)%nat -> nth k (a :: la) false = mbit r (Z.of_nat k) /\ nth k (b :: lb) false = mbit xp (Z.of_nat k)) by (intros k K; rewrite <- EX, <- ER; split; apply nth_bits; auto).
  assert (a = b) as ->. { destruct (G O) as [G1 G2]; [cbn in L1; lia|]. cbn [nth Z.of_nat] in G1, G2. rewrite G1, G2. rewrite H by (cbn in L1; lia). reflexivity. }
  cbn [scan1]. f_equal. apply (scanl_nth f false false); [cbn in *; lia|]. intros k K. destruct (G (S k)) as [G1 G2]; [cbn in L1; lia|]. cbn [nth] in G1, G2. rewrite G1, G2. rewrite H by (cbn in L1; lia). replace (Z.of_nat (S k) =? 0) with false by lia. f_equal. replace (Z.of_nat (S k) - 1) with (Z.of_nat k) by lia. destruct k as [|k]; [destruct (G O) as [G3 _]; [cbn in L1; lia|]; symmetry; exact G3|]. destruct (G (S k)) as [G3 _]; [cbn in L1; lia|]. symmetry. exact G3.
Qed.
Lemma sres_unit p w x r : match vals x with [] => True | a :: _ => prim_op p w a = a end -> sres p (Some w) x r <-> sres p None x r.
Proof. intros E. unfold sres. rewrite scanl_scan1 by auto. tauto. Qed.

(** * sums *)
Lemma scanl_add_exact : forall l c, 0 <= c -> Forall (fun z => z = 0 \/ z = 1) l -> c + Z.of_nat (length l) <= 2 ^ 53 -> scanl (prim_op (PO OAdd)) c l = scanl Z.add c l.
Proof.
  induction l as [|a l IH]; intros c C F B; [reflexivity|]. inversion F as [|? ? A F']; subst. cbn [scanl length] in *. cbn [prim_op dbl_op]. rewrite rnd_exact by lia. rewrite IH; auto; lia.
Qed.
Lemma bits01 l : Forall (fun z => z = 0 \/ z = 1) (map b2z l). Proof. apply Forall_forall. intros z H. apply in_map_iff in H. destruct H as ([] & <- & _); cbn; auto. Qed.
Lemma count_nn l : 0 <= count_true l. Proof. induction l as [|[] l IH]; cbn [count_true]; lia. Qed.
Lemma few_bits : forall l c, count_true l + b2z c <= 1 -> map b2z (scanl orb c l) = scanl Z.add (b2z c) (map b2z l).
Proof.
  induction l as [|a l IH]; intros c H; [reflexivity|]. cbn [scanl map count_true] in *. pose proof (count_nn l). assert (E : b2z (c || a) = b2z c + b2z a) by (destruct a, c; cbn [b2z orb] in *; lia). rewrite IH; rewrite E; [reflexivity|]. destruct a; cbn [b2z] in *; lia.
Qed.
Lemma no_bits : forall l, count_true l = 0 -> map b2z l = scanl Z.add 0 (map b2z l).
Proof. induction l as [|a l IH]; intros H; [reflexivity|]. cbn [scanl map count_true] in *. pose proof (count_nn l). destruct a; [lia|]. cbn [b2z]. rewrite Z.add_0_l. rewrite <- IH by lia. reflexivity. Qed.
Lemma bits_cons m n i : 0 <= i < n -> skipn (Z.to_nat i) (bits_of m 0 n) = mbit m i :: skipn (Z.to_nat (i + 1)) (bits_of m 0 n).
Proof.
  intros I. replace (Z.to_nat (i + 1)) with (S (Z.to_nat i)) by lia. rewrite <- (firstn_skipn (Z.to_nat i) (bits_of m 0 n)) at 2. pose proof (len_bits m 0 n) as L. pose proof (nth_bits m n (Z.to_nat i)) as E. rewrite Z2Nat.id in E by lia.
  rewrite <- E by lia. clear E. rewrite firstn_skipn. revert L. generalize (bits_of m 0 n). intros l L. assert (H : (Z.to_nat i < length l)%nat) by lia. clear L. revert l H. induction (Z.to_nat i) as [|k IH]; intros [|a l] H; cbn [length] in H; try lia; [reflexivity|]. cbn [skipn nth]. rewrite IH by lia. reflexivity.
Qed.
Lemma sum_bits_ok tr xp n B : 0 <= n <= 64 * len xp -> (forall z, 0 <= z <= B -> tr z = z) -> forall m i c, 0 <= i -> i + Z.of_nat m = n -> 0 <= c -> c + count_true (skipn (Z.to_nat i) (bits_of xp 0 n)) <= B -> sum_bits tr m xp i c = Ok (scanl Z.add c (map b2z (skipn (Z.to_nat i) (bits_of xp 0 n)))).
Proof.
  intros N T. induction m as [|m IH]; intros i c I E C H.
  - replace (skipn (Z.to_nat i) (bits_of xp 0 n)) with (@nil bool); [reflexivity|]. symmetry. apply skipn_all2. rewrite len_bits. lia.
  - rewrite bits_cons in * by lia. cbn [count_true sum_bits] in *. rewrite bitp_get_spec by lia. cbn [bind]. rewrite Z.mul_0_r, Z.add_0_l. set (q := skipn (Z.to_nat (i + 1)) (bits_of xp 0 n)) in *. pose proof (count_nn q). assert (E2 : tr (c + b2z (mbit xp i)) = c + b2z (mbit xp i)) by (apply T; destruct (mbit xp i); cbn [b2z]; lia). rewrite E2. rewrite IH; [reflexivity|lia|lia|destruct (mbit xp i); cbn [b2z]; lia|]. fold q. destruct (mbit xp i); cbn [b2z]; lia.
Qed.
Lemma fill_ones_ok : forall l j c ri ia, 0 <= ri <= j -> j + Z.of_nat (length l) = ia -> fill_ones (rep (fun i => i) (map b2z l) j) c ri ia = Ok (repeat c (Z.to_nat (j - ri)) ++ scanl Z.add c (map b2z l)).
Proof.
  induction l as [|b l IH]; intros j c ri ia R E.
  - cbn [map rep fill_ones scanl length] in *. rewrite app_nil_r. replace ia with j by lia. destruct (Z.ltb_spec ri j); [reflexivity|]. replace (Z.to_nat (j - ri)) with O by lia. reflexivity.
  - cbn [map rep scanl length] in *. destruct b; cbn [b2z].
    + change (Z.to_nat 1) with 1%nat. cbn [repeat app fill_ones]. replace (j <? ri) with false by lia. rewrite IH by lia. cbn [bind]. replace (Z.to_nat (j + 1 - j)) with 1%nat by lia. reflexivity.
    + change (Z.to_nat 0) with 0%nat. cbn [repeat app]. rewrite IH by lia. f_equal. rewrite Z.add_0_r. replace (Z.to_nat (j + 1 - ri)) with (Z.to_nat (j - ri) + 1)%nat by lia. rewrite repeat_app, <- app_assoc. reflexivity.
Qed.
Lemma scanl_bounds B : forall l c, 0 <= c -> Forall (fun z => 0 <= z) l -> c + zsum l <= B -> Forall (fun z => 0 <= z <= B) (scanl Z.add c l).
Proof. induction l as [|a l IH]; intros c C F H; cbn [scanl zsum] in *; constructor; inversion F as [|? ? A F']; subst; assert (0 <= zsum l) by (clear - F'; induction F'; cbn [zsum]; lia); [lia|apply IH; auto; lia]. Qed.
Lemma add_bool_ok junk umax xp n : 0 < umax <= 2 ^ 48 -> words xp -> 0 <= n <= 64 * len xp -> n < umax -> exists a, scan_add_bool junk umax xp n = Ok a /\ arr_ok a /\ vals a = scanl Z.add 0 (map b2z (bits_of xp 0 n)).
Proof.
  intros U W N NU. change (2 ^ 48) with 281474976710656 in U. unfold scan_add_bool. rewrite bit_sum_spec by lia. cbn [bind]. set (l := bits_of xp 0 n). pose proof (len_bits xp 0 n) as LL. fold l in LL. pose proof (count_le l) as CL. pose proof (count_nn l) as CN. set (xs := count_true l) in *.
  destruct (Z.leb_spec xs 1) as [Few|Many].
  { destruct (Z.eqb_spec xs 0) as [Z0|N0]. { exists (AB xp n). split; [reflexivity|]. split; [split; auto|]. rewrite vals_bits. apply no_bits. auto. }
    destruct (scan_or_ok xp n W N) as (r & -> & L & Wr & H). cbn [bind]. destruct (nwords_le xp n N) as [N1 N2]. exists (AB r n). split; [reflexivity|]. split; [split; auto; lia|]. rewrite vals_bits. rewrite (scanl_bits orb false r xp n). { apply (few_bits l false). cbn [b2z]. lia. } intros k K. apply H. lia. }
  assert (SUM : forall tr B, (forall z, 0 <= z <= B -> tr z = z) -> xs <= B -> sum_bits tr (Z.to_nat n) xp 0 0 = Ok (scanl Z.add 0 (map b2z l))). { intros tr B T XB. pose proof (sum_bits_ok tr xp n B N T (Z.to_nat n) 0 0) as S. cbn [Z.to_nat skipn] in S. apply S; try lia. fold l. fold xs. lia. }
  set (re := if xs <=? 127 then 8 else if xs <=? 32767 then 16 else if xs <=? 2147483647 then 32 else 64).
  assert (RE : (re = 8 /\ xs <= 127) \/ (re = 16 /\ xs <= 32767) \/ (re = 32 /\ xs <= 2147483647) \/ re = 64). { unfold re. destruct (Z.leb_spec xs 127), (Z.leb_spec xs 32767), (Z.leb_spec xs 2147483647); auto; tauto. } clearbody re.
  assert (E : (if xs <? n / 128 then do ones <- slash_c1 junk umax (fun c => c) (CB xp n); fill_ones ones 0 0 n else sum_bits (if re =? 64 then rnd else to_s re) (Z.to_nat n) xp 0 0) = Ok (scanl Z.add 0 (map b2z l))).
  { destruct (xs <? n / 128).
    - rewrite indices_ok; [| |intros c Hc; auto|split; auto|cbn [c_ia]; lia]. 2: { change (2 ^ 48) with 281474976710656. lia. } cbn [counts]. fold l. destruct (bits_total l) as (E1 & E2 & E3). rewrite E1, E2, E3. fold xs. replace (xs <? umax) with true by lia. cbn [andb bind]. rewrite rep_indices. pose proof (fill_ones_ok l 0 0 0 n) as F. change (map (fun b : bool => if b then 1 else 0) l) with (map b2z l). rewrite F by lia. reflexivity.
    - destruct RE as [[-> X]|[[-> X]|[[-> X]| ->]]].
      + apply (SUM _ 127); auto. intros z Hz. apply to_s_id; [lia|]. change (2 ^ (8 - 1)) with 128. lia.
      + apply (SUM _ 32767); auto. intros z Hz. apply to_s_id; [lia|]. change (2 ^ (16 - 1)) with 32768. lia.
      + apply (SUM _ 2147483647); auto. intros z Hz. apply to_s_id; [lia|]. change (2 ^ (32 - 1)) with 2147483648. lia.
      + apply (SUM _ xs); [|lia]. intros z Hz. apply rnd_exact. lia. }
  rewrite E. cbn [bind]. eexists. split; [reflexivity|]. assert (BD : Forall (fun z => 0 <= z <= xs) (scanl Z.add 0 (map b2z l))). { apply scanl_bounds; [lia| |rewrite <- count_sum; fold xs; lia]. apply Forall_forall. intros z H. apply in_map_iff in H. destruct H as ([] & <- & _); cbn; lia. }
  destruct RE as [[-> X]|[[-> X]|[[-> X]| ->]]]; (split; [|reflexivity]); cbn [Z.eqb Pos.eqb arr_ok]; try (split; [tauto|]); (eapply Forall_impl; [|exact BD]); intros z Hz; cbv beta in Hz.
  - change (2 ^ (8 - 1)) with 128. lia.
  - change (2 ^ (16 - 1)) with 32768. lia.
  - change (2 ^ (32 - 1)) with 2147483648. lia.
  - exists z, 0. rewrite Z.mul_1_r. lia.
Qed.
