(** Replicate of single bits by counts: proofs. *)
From Verif Require Import Base ListLib BitsModel BitsSpec BitsProof BitsProof2 SqueezeModel SqueezeProof WidenModel SlashModel SlashModel2 SlashModel3 SlashModel4 SlashModel5 SlashSpec SlashProof SlashBsp SlashWhere SlashWhere2 SlashInd SlashComp SlashComp2 SlashComp3 SlashThm SlashRep.
From Coq Require Import List.

Lemma spread_val b : spread (Z.b2z b) = if b then Z.ones 64 else 0. Proof. destruct b; reflexivity. Qed.
Lemma spread_bit b i : 0 <= i < 64 -> Z.testbit (spread (Z.b2z b)) i = b.
Proof. intros I. rewrite spread_val. destruct b. - rewrite tb_ones by lia. destruct (Z.ltb_spec i 64); [auto|lia]. - apply Z.testbit_0_l. Qed.
Lemma spread_range b : 0 <= spread (Z.b2z b) < 2 ^ 64. Proof. destruct b; vm_compute; split; congruence. Qed.
Lemma land1 w : Z.land w 1 = Z.b2z (Z.testbit w 0).
Proof. change 1 with (Z.ones 1). rewrite Z.land_ones by lia. rewrite Z.bit0_mod. change (2 ^ 1) with 2. auto. Qed.
Lemma top63 v : 0 <= v < 2 ^ 64 -> Z.shiftr v 63 = Z.b2z (Z.testbit v 63).
Proof. intros H. rewrite Z.testbit_spec' by lia. rewrite Z.shiftr_div_pow2 by lia. rewrite Z.mod_small; auto. split; [apply Z.div_pos; lia|apply Z.div_lt_upper_bound; lia]. Qed.
Lemma land1s w k : 0 <= k -> Z.land (Z.shiftr w k) 1 = Z.b2z (Z.testbit w k).
Proof. intros K. rewrite land1, Z.shiftr_spec by lia. auto. Qed.
Lemma lxor_range a b : 0 <= a < 2 ^ 64 -> 0 <= b < 2 ^ 64 -> 0 <= Z.lxor a b < 2 ^ 64.
Proof. intros A B. apply bits_range; [lia|]. intros i I. rewrite Z.lxor_spec, (range_bits a 64), (range_bits b 64) by lia. auto. Qed.
Lemma mem_len junk n : 0 <= n -> len (mem junk n) = n. Proof. intros N. unfold len, mem. rewrite repeat_length. lia. Qed.

Section Rep.
Variables (cs : list Z) (xp : list Z) (WV : Z -> res Z).
Hypothesis Cn : nonneg cs = true.
Let n := Z.of_nat (length cs).
Let s := total cs.
Hypothesis Hw : forall j, 0 <= j < n -> WV j = Ok (nth (Z.to_nat j) cs 0).
Hypothesis Wx : words xp.
Hypothesis Hx : n <= 64 * len xp.
Hypothesis Np : 0 < n.

Definition PS (j : Z) : Z := total (firstn (Z.to_nat j) cs).
Definition X (j : Z) : bool := mbit xp j.
Lemma PS0 : PS 0 = 0. Proof. reflexivity. Qed.
Lemma total_snoc l c : total (l ++ [c]) = total l + c.
Proof. induction l as [|a l IH]; cbn [app total fold_right]; [unfold total; cbn; lia|]. unfold total in *. cbn [fold_right]. rewrite IH. lia. Qed.
Lemma PSs j : 0 <= j < n -> PS (j + 1) = PS j + nth (Z.to_nat j) cs 0.
Proof. intros H. unfold PS. replace (Z.to_nat (j + 1)) with (S (Z.to_nat j)) by lia. rewrite (firstn_snoc cs _ (nth (Z.to_nat j) cs 0)) by (apply nth_error_nth'; unfold n in H; lia). apply total_snoc. Qed.
Lemma cnonneg j : 0 <= nth (Z.to_nat j) cs 0.
Proof. unfold nonneg in Cn. rewrite forallb_forall in Cn. destruct (Nat.lt_ge_cases (Z.to_nat j) (length cs)) as [L|L]. - apply Z.leb_le, Cn, nth_In, L. - rewrite nth_overflow by lia. lia. Qed.
Lemma PSmono j k : 0 <= j <= k -> k <= n -> PS j <= PS k.
Proof. intros H K. replace k with (j + Z.of_nat (Z.to_nat (k - j))) in * by lia. revert K. generalize (Z.to_nat (k - j)). intros d. induction d as [|d IH]; intros K; [replace (j + Z.of_nat 0) with j by lia; lia|]. replace (j + Z.of_nat (S d)) with (j + Z.of_nat d + 1) by lia. rewrite PSs by lia. pose proof (cnonneg (j + Z.of_nat d)). specialize (IH ltac:(lia)). lia. Qed.
Lemma PSn : PS n = s. Proof. unfold PS, n, s. rewrite Nat2Z.id, firstn_all. auto. Qed.
Lemma PSle j : 0 <= j <= n -> PS j <= s. Proof. intros H. rewrite <- PSn. apply PSmono; lia. Qed.
Lemma PSpos j : 0 <= j <= n -> 0 <= PS j. Proof. intros H. rewrite <- PS0. apply PSmono; lia. Qed.
Lemma PSfind p : 0 <= p < s -> exists j, 0 <= j < n /\ PS j <= p < PS (j + 1).
Proof.
  intros P. assert (G : forall d : nat, Z.of_nat d <= n -> p < PS (Z.of_nat d) -> exists j, 0 <= j < n /\ PS j <= p < PS (j + 1)).
  { induction d as [|d IH]; intros D L; [change (Z.of_nat 0) with 0 in L; rewrite PS0 in L; lia|]. destruct (Z.lt_ge_cases p (PS (Z.of_nat d))) as [B|B]; [apply IH; lia|]. exists (Z.of_nat d). split; [lia|]. split; auto. replace (Z.of_nat d + 1) with (Z.of_nat (S d)) by lia. auto. }
  apply (G (length cs)); [unfold n; lia|]. fold n. rewrite PSn. lia.
Qed.
(** the result is what it must be if every bit is that of its place *)
Lemma rep_nth {A} (d : A) : forall l (xs : list A) j p, nonneg l = true -> length l = length xs -> (j < length l)%nat -> total (firstn j l) <= p < total (firstn (S j) l) -> nth (Z.to_nat p) (replicate l xs) d = nth j xs d.
Proof.
  induction l as [|c l IH]; intros xs j p N L J P; cbn [length] in *; [lia|]. destruct xs as [|x xs]; cbn [length] in L; [lia|]. cbn [nonneg forallb] in N. apply andb_true_iff in N. destruct N as [N1 N2]. apply Z.leb_le in N1. rewrite replicate_cons.
  assert (TC : forall l', total (c :: l') = c + total l') by reflexivity. destruct j as [|j].
  - cbn [firstn] in P. rewrite TC in P. change (total []) with 0 in P. cbn [nth]. rewrite app_nth1 by (rewrite repeat_length; lia). rewrite (nth_indep _ d x) by (rewrite repeat_length; lia). apply nth_repeat.
  - change (firstn (S (S j)) (c :: l)) with (c :: firstn (S j) l) in P. change (firstn (S j) (c :: l)) with (c :: firstn j l) in P. rewrite !TC in P.
    assert (0 <= total (firstn j l)). { apply nonneg_total. unfold nonneg in *. rewrite forallb_forall in *. intros z Hz. apply N2. rewrite <- (firstn_skipn j l). apply in_or_app. auto. }
    rewrite app_nth2 by (rewrite repeat_length; lia). rewrite repeat_length. replace (Z.to_nat p - Z.to_nat c)%nat with (Z.to_nat (p - c)) by lia. cbn [nth]. apply IH; auto; lia.
Qed.
Lemma replicate_len {A} : forall l (xs : list A), nonneg l = true -> length l = length xs -> Z.of_nat (length (replicate l xs)) = total l.
Proof. induction l as [|c l IH]; intros xs N L; cbn [length] in L; [reflexivity|]. destruct xs as [|x xs]; cbn [length] in L; [lia|]. cbn [nonneg forallb] in N. apply andb_true_iff in N. destruct N as [N1 N2]. apply Z.leb_le in N1. rewrite replicate_cons, app_length, repeat_length. cbn [total fold_right]. fold (total l). rewrite <- (IH xs N2) by lia. lia. Qed.
Lemma bits_by_place rp : (forall j p, 0 <= j < n -> PS j <= p < PS (j + 1) -> mbit rp p = X j) -> bits_of rp 0 s = replicate cs (bits_of xp 0 n).
Proof.
  intros H. assert (Ln : Z.of_nat (length (replicate cs (bits_of xp 0 n))) = s) by (apply replicate_len; auto; unfold bits_of; rewrite map_length, seq_length; unfold n; lia).
  apply nth_ext with (d := false) (d' := false). { unfold bits_of at 1. rewrite map_length, seq_length. lia. }
  intros i Hi. unfold bits_of at 1 in Hi. rewrite map_length, seq_length in Hi. destruct (PSfind (Z.of_nat i) ltac:(lia)) as (j&Hj&Pj). rewrite <- (Nat2Z.id i) at 2. rewrite (rep_nth false cs _ (Z.to_nat j) (Z.of_nat i)); auto.
  - pose proof (nth_bits_of rp 0 s i) as B. destruct (Z.ltb_spec (Z.of_nat i) s); [|lia]. apply nth_error_nth with (d := false) in B. rewrite B. rewrite (H j (64 * 0 + Z.of_nat i)) by (rewrite ?Z.mul_0_r; auto). unfold X.
    pose proof (nth_bits_of xp 0 n (Z.to_nat j)) as C. destruct (Z.ltb_spec (Z.of_nat (Z.to_nat j)) n); [|lia]. apply nth_error_nth with (d := false) in C. rewrite C. f_equal. lia.
  - unfold bits_of. rewrite map_length, seq_length. unfold n. lia.
  - unfold n in Hj. lia.
  - unfold PS in Pj. replace (S (Z.to_nat j)) with (Z.to_nat (j + 1)) by lia. auto.
Qed.

(** the bit at p, if only the counts up to place j are known *)
Fixpoint F (j : nat) (p : Z) : bool := match j with O => X 0 | S i => if PS (Z.of_nat (S i)) <=? p then X (Z.of_nat (S i)) else F i p end.
Lemma F_above j p : j = O \/ PS (Z.of_nat j) <= p -> F j p = X (Z.of_nat j).
Proof. destruct j as [|j]; intros [H|H]; auto; try discriminate. cbn [F]. destruct (Z.leb_spec (PS (Z.of_nat (S j))) p); auto; lia. Qed.
Lemma F_mid j i p : (i <= j)%nat -> Z.of_nat j <= n -> PS (Z.of_nat i) <= p < PS (Z.of_nat i + 1) -> F j p = X (Z.of_nat i).
Proof.
  intros L. induction L as [|j L IH]; intros N P. - apply F_above. lia. - cbn [F]. pose proof (PSmono (Z.of_nat i + 1) (Z.of_nat (S j)) ltac:(lia) ltac:(lia)). destruct (Z.leb_spec (PS (Z.of_nat (S j))) p); [lia|]. apply IH; lia || auto.
Qed.
Definition Fz (j p : Z) : bool := F (Z.to_nat j) p.
Lemma Fz_step j p : 0 <= j -> Fz (j + 1) p = if PS (j + 1) <=? p then X (j + 1) else Fz j p.
Proof. intros J. unfold Fz. replace (Z.to_nat (j + 1)) with (S (Z.to_nat j)) by lia. cbn [F]. replace (Z.of_nat (S (Z.to_nat j))) with (j + 1) by lia. auto. Qed.
Lemma Fz_above j p : 0 <= j -> j = 0 \/ PS j <= p -> Fz j p = X j.
Proof. intros J H. unfold Fz. rewrite F_above; [f_equal; lia|]. destruct H as [->|H]; auto. right. replace (Z.of_nat (Z.to_nat j)) with j by lia. auto. Qed.
Lemma Fz_mid j i p : 0 <= i <= j -> j <= n -> PS i <= p < PS (i + 1) -> Fz j p = X i.
Proof. intros H N P. unfold Fz. rewrite (F_mid _ (Z.to_nat i)); [f_equal; lia|lia|lia|]. replace (Z.of_nat (Z.to_nat i)) with i by lia. auto. Qed.

(** differences of neighbouring bits *)
Definition XX (j xx xs : Z) : Prop := (forall t, 0 < t -> j mod 64 + t < 64 -> Z.testbit xx t = xorb (X (j + t)) (X (j + t - 1))) /\ xs = Z.b2z (X (64 * (j / 64) + 63)).
Lemma xx_load v : forall i, 0 <= i < len xp -> v = word xp i -> (forall t, 0 < t < 64 -> Z.testbit (Z.lxor v (shl v 1)) t = xorb (X (64 * i + t)) (X (64 * i + t - 1))) /\ Z.shiftr v 63 = Z.b2z (X (64 * i + 63)).
Proof.
  intros i I ->. split.
  - intros t T. rewrite Z.lxor_spec, tb_shl by lia. destruct (Z.ltb_spec t 64); [|lia]. rewrite andb_true_r. unfold X. replace (64 * i + t - 1) with (64 * i + (t - 1)) by lia. rewrite !mbit_word by lia. auto.
  - rewrite top63 by (apply word_range; auto). unfold X. rewrite mbit_word by lia. auto.
Qed.
Lemma xx_step j xx xs : 0 <= j -> j + 1 < n -> XX j xx xs -> exists xx' xs',
  (if (j + 1) mod 64 =? 0 then do v <- rdz xp ((j + 1) / 64); Ok (Z.lxor (Z.lxor v (shl v 1)) xs, Z.shiftr v 63) else Ok (Z.shiftr xx 1, xs)) = Ok (xx', xs') /\ XX (j + 1) xx' xs' /\ Z.testbit xx' 0 = xorb (X (j + 1)) (X j).
Proof.
  intros J L (Hx1&Hx2). destruct (Z.eqb_spec ((j + 1) mod 64) 0) as [E|E].
  - rewrite rdz_ok by lia. cbn [bind]. set (i := (j + 1) / 64). assert (Ji : j + 1 = 64 * i) by lia. destruct (xx_load (word xp i) i ltac:(lia) eq_refl) as (A&B). set (v := word xp i) in *. eexists _, _. split; [reflexivity|]. assert (Xb : forall t, Z.testbit (Z.b2z (X (64 * (j / 64) + 63))) (Z.pos t) = false) by (intros t; destruct (X _); [apply (Z.bits_above_log2 1); cbn; lia|apply Z.testbit_0_l]). split; [split|].
    + intros t T1 T2. rewrite Z.lxor_spec. rewrite A by lia. rewrite Hx2. destruct t as [|t|t]; [lia| |lia]. rewrite Xb, xorb_false_r. rewrite Ji. auto.
    + rewrite B, Ji. do 3 f_equal. lia.
    + rewrite !Z.lxor_spec, tb_shl by lia. rewrite (Z.testbit_neg_r v (0 - 1)) by lia. cbn [andb]. rewrite xorb_false_r. rewrite Hx2, Z.b2z_bit0. f_equal; [|f_equal; lia]. rewrite Ji. unfold X. replace (64 * i) with (64 * i + 0) by lia. rewrite mbit_word by lia. auto.
  - eexists _, _. split; [reflexivity|]. split; [split|].
    + intros t T1 T2. rewrite Z.shiftr_spec by lia. rewrite Hx1 by lia. f_equal; f_equal; lia.
    + rewrite Hx2. do 3 f_equal. lia.
    + rewrite Z.shiftr_spec by lia. rewrite Hx1 by lia. f_equal; f_equal; lia.
Qed.

(** a block of words: from word k0 to word eb *)
Definition Blk (j k0 eb : Z) (rp : list Z) : Prop := words rp /\ (forall i b, k0 <= i < eb -> 0 <= b < 64 -> mbit rp (64 * i + b) = xorb (Fz j (64 * i + b)) (Fz j (64 * i - 1))).
Lemma inner_ok e k0 eb : forall fuel j xx xs rp, 0 <= j < n -> n - j <= Z.of_nat fuel -> e <= s -> 0 <= k0 -> 64 * k0 <= PS (j + 1) -> eb = (e - 1) / 64 + 1 -> eb <= len rp -> XX j xx xs -> Blk j k0 eb rp ->
  exists j' xx' xs' rp', xs_inner WV xp fuel e j (PS (j + 1)) xx xs rp = Ok (j', PS (j' + 1), xx', xs', rp') /\ j <= j' < n /\ e <= PS (j' + 1) /\ (PS j' < e \/ j' = j) /\ XX j' xx' xs' /\ Blk j' k0 eb rp' /\ len rp' = len rp /\ (forall q, 0 <= q < 64 * k0 -> mbit rp' q = mbit rp q).
Proof.
  induction fuel as [|f IH]; intros j xx xs rp J Fu Es K0 Kp Eb Lr HX (Wr&HB); cbn [xs_inner]; [lia|].
  destruct (Z.leb_spec e (PS (j + 1))) as [L|L].
  - exists j, xx, xs, rp. repeat (split; [solve [auto|lia]|]). split; [split; auto|]. auto.
  - assert (Jn : j + 1 < n). { destruct (Z.lt_ge_cases (j + 1) n); auto. replace (j + 1) with n in L by lia. rewrite PSn in L. lia. }
    pose proof (PSpos (j + 1) ltac:(lia)) as Pp. pose proof (PSmono j (j + 1) ltac:(lia) ltac:(lia)) as Pm.
    destruct (xx_step j xx xs ltac:(lia) Jn HX) as (xx'&xs'&E1&HX'&D). rewrite E1. cbn [bind].
    set (q := PS (j + 1)) in *. rewrite rdz_ok by lia. cbn [bind]. rewrite wrz_ok by lia. cbn [bind]. rewrite Hw by lia. cbn [bind]. replace (q + nth (Z.to_nat (j + 1)) cs 0) with (PS (j + 1 + 1)) by (rewrite (PSs (j + 1)) by lia; reflexivity).
    rewrite land1, D. set (d := xorb (X (j + 1)) (X j)) in *. set (nw := Z.lxor (word rp (q / 64)) (shl (spread (Z.b2z d)) (q mod 64))).
    assert (Rn : 0 <= nw < 2 ^ 64) by (apply lxor_range; [apply word_range; auto|apply shl_range]).
    pose proof (PSmono (j + 1) (j + 1 + 1) ltac:(lia) ltac:(lia)) as Pm2.
    destruct (IH (j + 1) xx' xs' (upd rp (Z.to_nat (q / 64)) nw)) as (j'&xx2&xs2&rp2&R1&R2&R3&R4&R5&R6&R7&R8); try lia; auto.
    + rewrite len_upd. auto.
    + split; [apply words_upd; auto|]. intros i b I B. rewrite mbit_upd by lia. rewrite !Fz_step by lia. fold q. replace ((64 * i + b) / 64) with i by lia. replace ((64 * i + b) mod 64) with b by lia.
      destruct (Z.eqb_spec i (q / 64)) as [Ei|Ei].
      * destruct (Z.leb_spec q (64 * i - 1)); [lia|]. unfold nw. rewrite Z.lxor_spec, tb_shl by lia. rewrite <- Ei, <- mbit_word, HB by lia. destruct (Z.ltb_spec b 64); [|lia]. rewrite andb_true_r. destruct (Z.leb_spec q (64 * i + b)) as [L2|L2].
        -- rewrite spread_bit by lia. unfold d. rewrite (Fz_above j (64 * i + b)) by lia. destruct (X j), (X (j + 1)), (Fz j (64 * i - 1)); auto.
        -- rewrite Z.testbit_neg_r by lia. rewrite xorb_false_r. auto.
      * rewrite HB by lia. destruct (Z.leb_spec q (64 * i + b)) as [L2|L2], (Z.leb_spec q (64 * i - 1)) as [L3|L3]; try lia; auto. rewrite !Fz_above by lia. rewrite !xorb_nilpotent. auto.
    + exists j', xx2, xs2, rp2. rewrite R1. rewrite len_upd in R7. split; [auto|]. split; [lia|]. split; [auto|]. split; [left; destruct R4 as [R4|R4]; [auto|rewrite R4; fold q; lia]|]. split; [auto|]. split; [auto|]. split; [auto|]. intros p P. rewrite R8 by auto. rewrite mbit_upd by lia. destruct (Z.eqb_spec (p / 64) (q / 64)); [lia|auto].
Qed.
Lemma clear_ok : forall m k0 rp, 0 <= k0 -> k0 + Z.of_nat m <= len rp -> exists rp', for_ m k0 (fun i rp => wrz rp i 0) rp = Ok rp' /\ len rp' = len rp /\ (forall q, 0 <= q -> mbit rp' q = if (k0 <=? q / 64) && (q / 64 <? k0 + Z.of_nat m) then false else mbit rp q) /\ (words rp -> words rp').
Proof.
  induction m as [|m IH]; intros k0 rp K L; cbn [for_]. - exists rp. split; [auto|]. split; [auto|]. split; [|auto]. intros q Q. destruct (Z.leb_spec k0 (q / 64)), (Z.ltb_spec (q / 64) (k0 + Z.of_nat 0)); auto; lia.
  - rewrite wrz_ok by lia. cbn [bind]. destruct (IH (k0 + 1) (upd rp (Z.to_nat k0) 0)) as (rp'&R1&R2&R3&R4); [lia|rewrite len_upd; lia|]. rewrite len_upd in R2. exists rp'. split; [auto|]. split; [auto|]. split; [|intros W; apply R4, words_upd; auto; lia]. intros q Q. rewrite R3 by auto. rewrite mbit_upd by lia. rewrite Z.testbit_0_l.
    destruct (Z.leb_spec (k0 + 1) (q / 64)), (Z.ltb_spec (q / 64) (k0 + 1 + Z.of_nat m)), (Z.leb_spec k0 (q / 64)), (Z.ltb_spec (q / 64) (k0 + Z.of_nat (S m))), (Z.eqb_spec (q / 64) k0); cbn [andb]; auto; lia.
Qed.
Lemma carry_ok j : forall m k0 b rp, 0 <= k0 -> k0 + Z.of_nat m <= len rp -> words rp -> (forall i c, k0 <= i < k0 + Z.of_nat m -> 0 <= c < 64 -> mbit rp (64 * i + c) = xorb (Fz j (64 * i + c)) (Fz j (64 * i - 1))) -> b = Fz j (64 * k0 - 1) ->
  exists rp', for_ m k0 (fun i (st : Z * list Z) => let '(js, rp) := st in do w <- rdz rp i; let v := Z.lxor w js in do rp <- wrz rp i v; Ok (spread (Z.shiftr v 63), rp)) (spread (Z.b2z b), rp) = Ok (spread (Z.b2z (Fz j (64 * (k0 + Z.of_nat m) - 1))), rp') /\ len rp' = len rp /\ words rp' /\ (forall q, 0 <= q < 64 * k0 -> mbit rp' q = mbit rp q) /\ (forall q, 64 * k0 <= q < 64 * (k0 + Z.of_nat m) -> mbit rp' q = Fz j q).
Proof.
  induction m as [|m IH]; intros k0 b rp K L W H ->; cbn [for_]. - exists rp. replace (k0 + Z.of_nat 0) with k0 by lia. split; [auto|]. split; [auto|]. split; [auto|]. split; [auto|]. intros q Q. lia.
  - rewrite rdz_ok by lia. cbn [bind]. set (b := Fz j (64 * k0 - 1)) in *. set (v := Z.lxor (word rp k0) (spread (Z.b2z b))). rewrite wrz_ok by lia. cbn [bind].
    assert (Rv : 0 <= v < 2 ^ 64) by (apply lxor_range; [apply word_range; auto|apply spread_range]).
    assert (Tv : forall c, 0 <= c < 64 -> Z.testbit v c = Fz j (64 * k0 + c)). { intros c C. unfold v. rewrite Z.lxor_spec, spread_bit, <- mbit_word, H by lia. fold b. rewrite xorb_assoc, xorb_nilpotent, xorb_false_r. auto. }
    rewrite top63 by auto. rewrite Tv by lia. destruct (IH (k0 + 1) (Fz j (64 * k0 + 63)) (upd rp (Z.to_nat k0) v)) as (rp'&R1&R2&R3&R4&R5); [lia|rewrite len_upd; lia|apply words_upd; auto| |f_equal; lia|].
    + intros i c I C. rewrite mbit_upd by lia. destruct (Z.eqb_spec ((64 * i + c) / 64) k0); [lia|]. apply H; lia.
    + rewrite len_upd in R2. exists rp'. split; [refine (eq_trans R1 _); do 5 f_equal; lia|]. split; [auto|]. split; [auto|]. split.
      * intros q Q. rewrite R4 by lia. rewrite mbit_upd by lia. destruct (Z.eqb_spec (q / 64) k0); [lia|auto].
      * intros q Q. destruct (Z.lt_ge_cases q (64 * (k0 + 1))) as [B|B]. -- rewrite R4 by lia. rewrite mbit_upd by lia. destruct (Z.eqb_spec (q / 64) k0); [|lia]. rewrite Tv by lia. f_equal. lia. -- apply R5. lia.
Qed.
Definition Done (e : Z) (rp : list Z) : Prop := forall i p, 0 <= i < n -> PS i <= p < PS (i + 1) -> p < e -> mbit rp p = X i.
Lemma outer_ok : forall fuel k0 j xx xs rp, 0 <= k0 -> 64 * k0 < s -> (s - 64 * k0) / 2 ^ 12 < Z.of_nat fuel -> 0 <= j < n -> 64 * k0 <= PS (j + 1) -> (PS j < 64 * k0 \/ j = 0) -> XX j xx xs -> len rp = BIT_N s -> Done (64 * k0) rp ->
  words rp ->
  exists rp', xs_outer WV xp fuel (Z.to_nat n) s (64 * k0) j (PS (j + 1)) xx xs (spread (Z.b2z (Fz j (64 * k0 - 1)))) rp = Ok rp' /\ len rp' = BIT_N s /\ Done s rp'.
Proof.
  induction fuel as [|f IH]; intros k0 j xx xs rp K Ks Fu J Kp Kj HX Lr HD Wr; [pose proof (Z.div_pos (s - 64 * k0) (2 ^ 12)); lia|]. cbn [xs_outer].
  set (e := if 2 ^ 12 <? s - 64 * k0 then 64 * k0 + 2 ^ 12 else s). assert (He : 64 * k0 < e <= s /\ (e = s \/ e = 64 * (k0 + 64) /\ 2 ^ 12 < s - 64 * k0)). { unfold e. destruct (Z.ltb_spec (2 ^ 12) (s - 64 * k0)); lia. } clearbody e. destruct He as (He1&He2).
  set (eb := (e - 1) / 64 + 1). replace (64 * k0 / 64) with k0 by lia.
  assert (Bs : BIT_N s = (s + 63) / 64) by (unfold BIT_N; rewrite ?Z.shiftr_div_pow2 by lia; reflexivity).
  assert (Eb : eb <= len rp /\ k0 < eb) by (rewrite Lr, Bs; unfold eb; lia). destruct Eb as (Eb&Eb2).
  destruct (clear_ok (Z.to_nat (eb - k0)) k0 rp K ltac:(lia)) as (rp1&C1&C2&C3&C4). specialize (C4 Wr). unfold xs_clear. rewrite C1. cbn [bind].
  assert (HB : Blk j k0 eb rp1). { split; [auto|]. intros i b I B. rewrite C3 by lia. replace ((64 * i + b) / 64) with i by lia. destruct (Z.leb_spec k0 i), (Z.ltb_spec i (k0 + Z.of_nat (Z.to_nat (eb - k0)))); try lia. cbn [andb]. rewrite !Fz_above by lia. rewrite xorb_nilpotent. auto. }
  destruct (inner_ok e k0 eb (Z.to_nat n) j xx xs rp1 J ltac:(lia) ltac:(lia) K Kp eq_refl ltac:(lia) HX HB) as (j'&xx'&xs'&rp2&I1&I2&I3&I4&I5&(I6a&I6b)&I7&I8).
  rewrite I1. cbn [bind].
  assert (Fk : Fz j (64 * k0 - 1) = Fz j' (64 * k0 - 1)). { destruct (Z.eq_dec k0 0) as [->|Kn].
    - assert (G : forall d, Z.of_nat d <= n -> F d (64 * 0 - 1) = X 0). { induction d as [|d IHd]; intros D; auto. cbn [F]. pose proof (PSpos (Z.of_nat (S d)) ltac:(lia)). destruct (Z.leb_spec (PS (Z.of_nat (S d))) (64 * 0 - 1)); [lia|]. apply IHd. lia. } unfold Fz. rewrite !G by lia. auto.
    - assert (PS j <= 64 * k0 - 1) by (destruct Kj as [Kj| -> ]; [lia|rewrite PS0; lia]). symmetry. rewrite (Fz_above j) by lia. apply (Fz_mid j' j); lia. }
  rewrite Fk. destruct (carry_ok j' (Z.to_nat (eb - k0)) k0 _ rp2 K ltac:(lia) I6a ltac:(intros i c Hi Hc; apply I6b; lia) eq_refl) as (rp3&R1&R2&R3&R4&R5). change (for_ (Z.to_nat (eb - k0)) k0 _ _) with (xs_carry k0 (eb - k0) (spread (Z.b2z (Fz j' (64 * k0 - 1)))) rp2) in R1. rewrite R1. cbn [bind].
  assert (HD' : Done e rp3). { intros i p Hi Hp Pe. destruct (Z.lt_ge_cases p (64 * k0)) as [B|B].
    - pose proof (PSpos i ltac:(lia)). rewrite R4, I8, C3 by lia. destruct (Z.leb_spec k0 (p / 64)); [lia|]. cbn [andb]. apply HD; auto.
    - rewrite R5 by lia. apply Fz_mid; [|lia|lia]. destruct (Z.le_gt_cases i j'); [lia|]. pose proof (PSmono (j' + 1) i ltac:(lia) ltac:(lia)). lia. }
  destruct (Z.eqb_spec e s) as [->|En]. - exists rp3. split; [auto|]. split; [lia|auto].
  - destruct He2 as [He2|(He2&He3)]; [lia|]. replace (k0 + Z.of_nat (Z.to_nat (eb - k0))) with (k0 + 64) by lia. rewrite He2 in *. apply (IH (k0 + 64) j' xx' xs' rp3); auto; try lia.
    + destruct I4 as [I4|I4]; [lia|]. subst j'. lia.
Qed.
Lemma xor_scan_ok junk : 0 <= junk < 2 ^ 64 -> 0 < s -> exists rp, rep_xor_scan junk WV xp n s = Ok rp /\ bits_of rp 0 s = replicate cs (bits_of xp 0 n).
Proof.
  intros Hj Hs. unfold rep_xor_scan. rewrite rdz_ok by lia. cbn [bind]. rewrite Hw by lia. cbn [bind].
  destruct (xx_load (word xp 0) 0 ltac:(lia) eq_refl) as (A&B). rewrite B. rewrite land1.
  assert (X0 : Z.testbit (word xp 0) 0 = X 0) by (unfold X; replace 0 with (64 * 0 + 0) at 3 by lia; rewrite mbit_word by lia; auto). rewrite X0.
  destruct (outer_ok (Z.to_nat (s / 2 ^ 12 + 1)) 0 0 (Z.lxor (word xp 0) (shl (word xp 0) 1)) (Z.b2z (X (64 * 0 + 63))) (mem junk (BIT_N s))) as (rp&R1&R2&R3); try lia.
  - pose proof (PSpos (0 + 1) ltac:(lia)). lia.
  - split; [|reflexivity]. intros t T1 T2. rewrite (A t) by (change (0 mod 64) with 0 in T2; lia). auto.
  - apply mem_len. unfold BIT_N. rewrite ?Z.shiftr_div_pow2 by lia. apply Z.div_pos; lia.
  - intros i p I P Q. pose proof (PSpos i ltac:(lia)). lia.
  - unfold words, mem. apply Forall_forall. intros w W. apply repeat_spec in W. lia.
  - exists rp. replace (nth (Z.to_nat 0) cs 0) with (PS (0 + 1)) by (rewrite PSs by lia; rewrite PS0; lia). split; [exact R1|]. apply bits_by_place. intros i p I P. apply (R3 i p I P). pose proof (PSle (i + 1) ltac:(lia)). lia.
Qed.

Lemma place_uniq i j p : 0 <= i < n -> 0 <= j < n -> PS i <= p < PS (i + 1) -> PS j <= p < PS (j + 1) -> i = j.
Proof. intros I J P Q. destruct (Z.lt_trichotomy i j) as [L|[L|L]]; auto; [pose proof (PSmono (i + 1) j ltac:(lia) ltac:(lia))|pose proof (PSmono (j + 1) i ltac:(lia) ltac:(lia))]; lia. Qed.
Definition fin (p : Z) (b : bool) : Prop := forall i, 0 <= i < n -> PS i <= p < PS (i + 1) -> b = X i.
Lemma fin_in i p : 0 <= i < n -> PS i <= p < PS (i + 1) -> fin p (X i).
Proof. intros I P j J Q. f_equal. eapply place_uniq; eauto. Qed.
Lemma fillw_ok v : forall m k0 rp, 0 <= k0 -> k0 + Z.of_nat m <= len rp -> exists rp', for_ m k0 (fun i rp => wrz rp i v) rp = Ok rp' /\ len rp' = len rp /\ (forall q, 0 <= q -> mbit rp' q = if (k0 <=? q / 64) && (q / 64 <? k0 + Z.of_nat m) then Z.testbit v (q mod 64) else mbit rp q).
Proof.
  induction m as [|m IH]; intros k0 rp K L; cbn [for_]. - exists rp. split; [auto|]. split; [auto|]. intros q Q. destruct (Z.leb_spec k0 (q / 64)), (Z.ltb_spec (q / 64) (k0 + Z.of_nat 0)); auto; lia.
  - rewrite wrz_ok by lia. cbn [bind]. destruct (IH (k0 + 1) (upd rp (Z.to_nat k0) v)) as (rp'&R1&R2&R3); [lia|rewrite len_upd; lia|]. rewrite len_upd in R2. exists rp'. split; [auto|]. split; [auto|]. intros q Q. rewrite R3 by auto. rewrite mbit_upd by lia.
    destruct (Z.leb_spec (k0 + 1) (q / 64)), (Z.ltb_spec (q / 64) (k0 + 1 + Z.of_nat m)), (Z.leb_spec k0 (q / 64)), (Z.ltb_spec (q / 64) (k0 + Z.of_nat (S m))), (Z.eqb_spec (q / 64) k0); cbn [andb]; auto; lia.
Qed.
Definition lastv (i : Z) : bool := if i =? 0 then false else X (i - 1).
Definition Ov (i : Z) (st : Z * Z * Z * Z * list Z) : Prop :=
  let '(ri, rc, xc, j, rp) := st in ri = PS i /\ j = ri / 64 /\ xc = spread (Z.b2z (lastv i)) /\ len rp = BIT_N s /\ (forall p, 0 <= p < 64 * j -> fin p (mbit rp p)) /\
  (forall b, 0 <= b < ri mod 64 -> fin (64 * j + b) (Z.testbit rc b)) /\ (forall b, ri mod 64 <= b < 64 -> Z.testbit rc b = lastv i).
Lemma BITN : BIT_N s = (s + 63) / 64. Proof. unfold BIT_N. rewrite ?Z.shiftr_div_pow2 by lia. reflexivity. Qed.
Lemma over_step_ok i st : 0 <= i < n -> Ov i st -> exists st', over_step WV xp i st = Ok st' /\ Ov (i + 1) st'.
Proof.
  intros I. destruct st as [[[[ri rc] xc] j] rp]. intros (Er&Ej&Ex&Lr&Hd&Hl&Hh). unfold over_step.
  assert (Bg : bitp_get xp 0 i = Ok (X i)). { unfold bitp_get. rewrite shr6, land63, rdz_ok by lia. cbn [bind]. unfold X. rewrite mbit_split. do 3 f_equal. }
  rewrite Bg. cbn [bind]. rewrite Hw by lia. cbn [bind]. set (c := nth (Z.to_nat i) cs 0). assert (Pn : ri + c = PS (i + 1)) by (rewrite PSs by lia; fold c; lia). pose proof (cnonneg i) as Cp. fold c in Cp. pose proof (PSpos i ltac:(lia)) as Pp. pose proof (PSle (i + 1) ltac:(lia)) as Pl. rewrite Pn.
  set (rc' := Z.lxor rc (shl (Z.lxor (spread (Z.b2z (X i))) xc) (ri mod 64))).
  assert (T1 : forall b, 0 <= b < ri mod 64 -> Z.testbit rc' b = Z.testbit rc b). { intros b B. unfold rc'. rewrite Z.lxor_spec, tb_shl by lia. rewrite (Z.testbit_neg_r _ (b - ri mod 64)) by lia. apply xorb_false_r. }
  assert (T2 : forall b, ri mod 64 <= b < 64 -> Z.testbit rc' b = X i). { intros b B. unfold rc'. rewrite Z.lxor_spec, tb_shl, Hh by lia. destruct (Z.ltb_spec b 64); [|lia]. rewrite andb_true_r, Z.lxor_spec, Ex, !spread_bit by lia. destruct (X i), (lastv i); auto. }
  assert (Lv : lastv (i + 1) = X i) by (unfold lastv; destruct (Z.eqb_spec (i + 1) 0); [lia|f_equal; lia]).
  pose proof BITN as BN. clearbody rc'. destruct (Z.ltb_spec j (PS (i + 1) / 64)) as [L|L].
  - rewrite wrz_ok by lia. cbn [bind]. destruct (fillw_ok (spread (Z.b2z (X i))) (Z.to_nat (PS (i + 1) / 64 - (j + 1))) (j + 1) (upd rp (Z.to_nat j) rc') ltac:(lia) ltac:(rewrite len_upd; lia)) as (rp2&R1&R2&R3). rewrite R1. cbn [bind]. rewrite len_upd in R2. eexists. split; [reflexivity|].
    split; [auto|]. split; [auto|]. split; [rewrite Lv; auto|]. split; [lia|]. split; [|split].
    + intros p P. rewrite R3, mbit_upd by lia. destruct (Z.leb_spec (j + 1) (p / 64)), (Z.ltb_spec (p / 64) (j + 1 + Z.of_nat (Z.to_nat (PS (i + 1) / 64 - (j + 1))))), (Z.eqb_spec (p / 64) j); cbn [andb]; try lia.
      * rewrite spread_bit by lia. apply fin_in; lia.
      * destruct (Z.lt_ge_cases p ri). -- rewrite T1 by lia. replace p with (64 * j + p mod 64) at 1 by lia. apply Hl. lia. -- rewrite T2 by lia. apply fin_in; lia.
      * apply Hd. lia.
    + intros b B. rewrite spread_bit by lia. apply fin_in; lia.
    + intros b B. rewrite spread_bit by lia. auto.
  - assert (Ee : j = PS (i + 1) / 64) by lia. eexists. split; [reflexivity|]. split; [auto|]. split; [auto|]. split; [rewrite Lv; auto|]. split; [lia|]. split; [auto|]. split.
    + intros b B. destruct (Z.lt_ge_cases b (ri mod 64)). -- rewrite T1 by lia. apply Hl. lia. -- rewrite T2 by lia. apply fin_in; lia.
    + intros b B. rewrite T2 by lia. auto.
Qed.
Lemma for_inv {St} (f : Z -> St -> res St) (P : Z -> St -> Prop) : forall m i st, (forall k st, i <= k < i + Z.of_nat m -> P k st -> exists st', f k st = Ok st' /\ P (k + 1) st') -> P i st -> exists st', for_ m i f st = Ok st' /\ P (i + Z.of_nat m) st'.
Proof.
  induction m as [|m IH]; intros i st H P0; cbn [for_]. - exists st. split; auto. replace (i + Z.of_nat 0) with i by lia. auto.
  - destruct (H i st ltac:(lia) P0) as (st1&E1&P1). rewrite E1. cbn [bind]. destruct (IH (i + 1) st1) as (st2&E2&P2); [intros k st2 K Hk; apply H; auto; lia|auto|]. exists st2. split; auto. replace (i + Z.of_nat (S m)) with (i + 1 + Z.of_nat m) by lia. auto.
Qed.
Lemma fin_place rp : (forall p, 0 <= p < s -> fin p (mbit rp p)) -> bits_of rp 0 s = replicate cs (bits_of xp 0 n).
Proof. intros H. apply bits_by_place. intros j p J P. pose proof (PSpos j ltac:(lia)). pose proof (PSle (j + 1) ltac:(lia)). apply H; auto; lia. Qed.
Lemma over_ok junk : exists rp, rep_over junk WV xp n s = Ok rp /\ bits_of rp 0 s = replicate cs (bits_of xp 0 n).
Proof.
  pose proof BITN as BN. pose proof (PSpos n ltac:(lia)) as Sp. rewrite PSn in Sp. unfold rep_over. destruct (for_inv (over_step WV xp) Ov (Z.to_nat n) 0 (0, 0, 0, 0, mem junk (BIT_N s))) as (st&E&P).
  - intros k st K. apply over_step_ok. lia.
  - split; [auto|]. split; [auto|]. split; [auto|]. split; [apply mem_len; lia|]. split; [intros; lia|]. change (0 mod 64) with 0. split; [intros; lia|]. intros b B. apply Z.testbit_0_l.
  - rewrite E. cbn [bind]. destruct st as [[[[ri rc] xc] j] rp]. replace (0 + Z.of_nat (Z.to_nat n)) with n in P by lia. destruct P as (Er&Ej&Ex&Lr&Hd&Hl&Hh). rewrite PSn in Er. destruct (Z.eqb_spec (ri mod 64) 0) as [M|M]; cbn [negb].
    + exists rp. split; auto. apply fin_place. intros p P. apply Hd. lia.
    + rewrite wrz_ok by lia. eexists. split; [reflexivity|]. apply fin_place. intros p P. rewrite mbit_upd by lia. destruct (Z.eqb_spec (p / 64) j). * replace p with (64 * j + p mod 64) at 1 by lia. apply Hl. lia. * apply Hd. lia.
Qed.
Definition Cv (i : Z) (st : Z * Z * Z * list Z) : Prop :=
  let '(ri, c, j, rp) := st in ri = PS i /\ j = ri / 64 /\ c = spread (Z.b2z (lastv i)) /\ len rp = BIT_N s /\ (forall p, 0 <= p < 64 * j -> fin p (mbit rp p)).
Lemma const_step_ok wv i st : 64 < wv -> (forall j, 0 <= j < n -> nth (Z.to_nat j) cs 0 = wv) -> 0 <= i < n -> Cv i st -> exists st', const_step xp wv i st = Ok st' /\ Cv (i + 1) st'.
Proof.
  intros Wv Hc I. destruct st as [[[ri c] j] rp]. intros (Er&Ej&Ec&Lr&Hd). unfold const_step. rewrite rdz_ok by lia. cbn [bind]. rewrite land1s by lia. replace (Z.testbit (word xp (i / 64)) (i mod 64)) with (X i) by (unfold X; apply mbit_split).
  assert (Pn : ri + wv = PS (i + 1)) by (rewrite PSs, Hc by lia; lia). pose proof (PSpos i ltac:(lia)) as Pp. pose proof (PSle (i + 1) ltac:(lia)) as Pl. rewrite Pn. pose proof BITN as BN.
  set (r0 := Z.lxor c (shl (Z.lxor (spread (Z.b2z (X i))) c) (ri mod 64))).
  assert (T1 : forall b, 0 <= b < ri mod 64 -> Z.testbit r0 b = lastv i). { intros b B. unfold r0. rewrite Z.lxor_spec, tb_shl by lia. rewrite (Z.testbit_neg_r _ (b - ri mod 64)) by lia. rewrite Ec, spread_bit by lia. apply xorb_false_r. }
  assert (T2 : forall b, ri mod 64 <= b < 64 -> Z.testbit r0 b = X i). { intros b B. unfold r0. rewrite Z.lxor_spec, tb_shl by lia. destruct (Z.ltb_spec b 64); [|lia]. rewrite andb_true_r, Z.lxor_spec, Ec, !spread_bit by lia. destruct (X i), (lastv i); auto. }
  assert (Lv : lastv (i + 1) = X i) by (unfold lastv; destruct (Z.eqb_spec (i + 1) 0); [lia|f_equal; lia]).
  clearbody r0. set (e := PS (i + 1) / 64) in *. assert (Ee : j + wv / 64 <= e <= j + wv / 64 + 1) by (unfold e; lia). assert (1 <= wv / 64) by lia.
  rewrite wrz_ok by lia. cbn [bind]. rewrite wrz_ok by (rewrite len_upd; lia). cbn [bind].
  destruct (fillw_ok (spread (Z.b2z (X i))) (Z.to_nat (wv / 64 - 1)) (j + 1) (upd (upd rp (Z.to_nat (e - 1)) (spread (Z.b2z (X i)))) (Z.to_nat j) r0) ltac:(lia) ltac:(rewrite !len_upd; lia)) as (rp2&R1&R2&R3). rewrite R1. cbn [bind]. rewrite !len_upd in R2. eexists. split; [reflexivity|].
  split; [auto|]. split; [auto|]. split; [rewrite Lv; auto|]. split; [lia|]. intros p P. rewrite R3, mbit_upd by (rewrite ?len_upd; lia). rewrite mbit_upd by lia. destruct (Z.leb_spec (j + 1) (p / 64)), (Z.ltb_spec (p / 64) (j + 1 + Z.of_nat (Z.to_nat (wv / 64 - 1)))), (Z.eqb_spec (p / 64) j); cbn [andb]; try lia.
  - rewrite spread_bit by lia. apply fin_in; lia.
  - destruct (Z.eqb_spec (p / 64) (e - 1)); [|lia]. rewrite spread_bit by lia. apply fin_in; lia.
  - destruct (Z.lt_ge_cases p ri). + rewrite T1 by lia. destruct (Z.eq_dec i 0) as [->|]; [rewrite PS0 in Er; lia|]. unfold lastv. destruct (Z.eqb_spec i 0); [lia|]. assert (PS i = PS (i - 1) + wv) by (replace i with (i - 1 + 1) at 1 by lia; rewrite PSs, Hc by lia; lia). apply fin_in; [lia|]. replace (i - 1 + 1) with i by lia. lia. + rewrite T2 by lia. apply fin_in; lia.
  - destruct (Z.eqb_spec (p / 64) (e - 1)); [lia|]. apply Hd. lia.
Qed.
Lemma const_ok junk wv : 64 < wv -> (forall j, 0 <= j < n -> nth (Z.to_nat j) cs 0 = wv) -> exists rp, rep_const_bits junk xp wv n s = Ok rp /\ bits_of rp 0 s = replicate cs (bits_of xp 0 n).
Proof.
  intros Wv Hc. pose proof BITN as BN. pose proof (PSpos n ltac:(lia)) as Sp. rewrite PSn in Sp. unfold rep_const_bits. destruct (for_inv (const_step xp wv) Cv (Z.to_nat n) 0 (0, 0, 0, mem junk (BIT_N s))) as (st&E&P).
  - intros k st K. apply const_step_ok; auto. lia.
  - split; [auto|]. split; [auto|]. split; [auto|]. split; [apply mem_len; lia|]. intros; lia.
  - rewrite E. cbn [bind]. destruct st as [[[ri c] j] rp]. replace (0 + Z.of_nat (Z.to_nat n)) with n in P by lia. destruct P as (Er&Ej&Ec&Lr&Hd). rewrite PSn in Er.
    assert (Pl : s = PS (n - 1) + wv) by (rewrite <- PSn; replace n with (n - 1 + 1) at 1 by lia; rewrite PSs, Hc by lia; lia). destruct (Z.eqb_spec (ri mod 64) 0) as [M|M]; cbn [negb].
    + exists rp. split; auto. apply fin_place. intros p P. apply Hd. lia.
    + rewrite wrz_ok by lia. eexists. split; [reflexivity|]. apply fin_place. intros p P. rewrite mbit_upd by lia. destruct (Z.eqb_spec (p / 64) j); [|apply Hd; lia]. rewrite Ec, spread_bit by lia. unfold lastv. destruct (Z.eqb_spec n 0); [lia|]. apply fin_in; [lia|]. replace (n - 1 + 1) with n by lia. rewrite PSn. lia.
Qed.
End Rep.
