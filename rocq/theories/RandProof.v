From Verif Require Import Base BitsModel BitsSpec BitsProof WidenModel SlashBits RandModel RandSpec.
From Coq Require Import Permutation Sorting.Sorted.

Lemma wyrand_ok s : state s -> exists r s', wyrand s = (r, s') /\ 0 <= r < 2^64 /\ state s'.
Proof.
  intros S. unfold wyrand. eexists _, _. split; [reflexivity|]. assert (B : 0 <= (s + 11562461410679940143) mod 2 ^ 64 < 2^64) by (apply Z.mod_pos_bound; lia). split; [|exact B].
  set (a := (s + 11562461410679940143) mod 2 ^ 64) in *. unfold wymix. assert (C : 0 <= Z.lxor a 16646288086500911323 < 2^64) by (apply lxor_range; [exact B|lia]). set (b := Z.lxor a _) in *. clearbody a b. apply lxor_range; [apply Z.mod_pos_bound; lia|].
  split; [apply Z.div_pos; nia|]. apply Z.div_lt_upper_bound; nia.
Qed.
Lemma wy2u0k_ok r k : 0 <= r < 2^64 -> 0 < k -> 0 <= wy2u0k r k < k.
Proof. intros R K. unfold wy2u0k. split; [apply Z.div_pos; nia|]. apply Z.div_lt_upper_bound; nia. Qed.
Ltac draw S := match goal with |- context [wyrand ?s] => destruct (wyrand_ok s S) as (?rnd & ?sd & ?Ew & ?Hr & ?Hs); rewrite Ew end.

Lemma for_keep {St} (f : Z -> St -> res St) (P : Z -> St -> Prop) : forall m i st, (forall k st, i <= k < i + Z.of_nat m -> P k st -> exists st', f k st = Ok st' /\ P (k + 1) st') -> P i st -> exists st', for_ m i f st = Ok st' /\ P (i + Z.of_nat m) st'.
Proof.
  induction m as [|m IH]; intros i st H P0; cbn [for_]. - exists st. split; auto. replace (i + Z.of_nat 0) with i by lia. auto.
  - destruct (H i st ltac:(lia) P0) as (st1&E1&P1). rewrite E1. cbn [bind]. destruct (IH (i + 1) st1) as (st2&E2&P2); [intros k st2 K Hk; apply H; auto; lia|auto|]. exists st2. split; auto. replace (i + Z.of_nat (S m)) with (i + 1 + Z.of_nat m) by lia. auto.
Qed.
(** ranges and slices *)
Definition zr (a n : Z) : list Z := map (fun k => a + Z.of_nat k) (seq 0 (Z.to_nat n)).
Definition sl (m : list Z) (a n : Z) : list Z := map (word m) (zr a n).
Lemma zr_0 a n : n <= 0 -> zr a n = [].
Proof. intros H. unfold zr. replace (Z.to_nat n) with O by lia. reflexivity. Qed.
Lemma zr_app a n k : 0 <= n -> 0 <= k -> zr a (n + k) = zr a n ++ zr (a + n) k.
Proof.
  intros N K. unfold zr. rewrite Z2Nat.inj_add, seq_app, map_app by lia. f_equal. rewrite Nat.add_0_l.
  assert (G : forall q s, map (fun k0 => a + Z.of_nat k0) (seq (s + Z.to_nat n) q) = map (fun k0 => a + n + Z.of_nat k0) (seq s q)); [|apply (G _ O)].
  induction q as [|q IH]; intros s; [reflexivity|]. cbn [seq map]. f_equal; [lia|]. apply (IH (S s)).
Qed.
Lemma zr_1 a : zr a 1 = [a]. Proof. unfold zr. change (Z.to_nat 1) with 1%nat. cbn [seq map]. rewrite Z.add_0_r. reflexivity. Qed.
Lemma zr_snoc a n : 0 <= n -> zr a (n + 1) = zr a n ++ [a + n]. Proof. intros. rewrite zr_app, zr_1 by lia. reflexivity. Qed.
Lemma zr_cons a n : 0 < n -> zr a n = a :: zr (a + 1) (n - 1).
Proof. intros. replace n with (1 + (n - 1)) at 1 by lia. rewrite zr_app, zr_1 by lia. reflexivity. Qed.
Lemma zr_in a n v : In v (zr a n) <-> a <= v < a + n.
Proof. unfold zr. rewrite in_map_iff. split; [intros (k&<-&K); apply in_seq in K; lia|]. intros H. exists (Z.to_nat (v - a)). split; [lia|]. apply in_seq. lia. Qed.
Lemma zr_len a n : 0 <= n -> len (zr a n) = n. Proof. intros. unfold len, zr. rewrite map_length, seq_length. lia. Qed.
Lemma zr_nat n : zr 0 n = naturals n. Proof. unfold zr, naturals. apply map_ext. intros. lia. Qed.
Lemma sl_len m a n : 0 <= n -> len (sl m a n) = n. Proof. intros. unfold sl, len. rewrite map_length. apply zr_len; auto. Qed.
Lemma sl_app m a n k : 0 <= n -> 0 <= k -> sl m a (n + k) = sl m a n ++ sl m (a + n) k.
Proof. intros. unfold sl. rewrite zr_app, map_app by lia. reflexivity. Qed.
Lemma sl_split m a n k : 0 <= k <= n -> sl m a n = sl m a k ++ sl m (a + k) (n - k).
Proof. intros. rewrite <- sl_app by lia. f_equal. lia. Qed.
Lemma sl_snoc m a n : 0 <= n -> sl m a (n + 1) = sl m a n ++ [word m (a + n)].
Proof. intros. unfold sl. rewrite zr_snoc, map_app by lia. reflexivity. Qed.
Lemma sl_cons m a n : 0 < n -> sl m a n = word m a :: sl m (a + 1) (n - 1).
Proof. intros. unfold sl. rewrite zr_cons by lia. reflexivity. Qed.
Lemma sl_0 m a n : n <= 0 -> sl m a n = []. Proof. intros. unfold sl. rewrite zr_0 by lia. reflexivity. Qed.
Lemma sl_ext m m' a n : (forall k, a <= k < a + n -> word m' k = word m k) -> sl m' a n = sl m a n.
Proof. intros H. unfold sl. apply map_ext_in. intros k K. apply zr_in in K. auto. Qed.
Lemma sl_all m : sl m 0 (len m) = m.
Proof.
  unfold sl, zr, word, len. rewrite Nat2Z.id, map_map. assert (G : forall (l : list Z) s, map (fun k => nth (k - s) l 0) (seq s (length l)) = l).
  { induction l as [|v l IH]; intros s; [reflexivity|]. cbn [length seq map]. rewrite Nat.sub_diag. cbn [nth]. f_equal. rewrite <- (IH (S s)) at 2. apply map_ext_in. intros k K. apply in_seq in K. replace (k - s)%nat with (S (k - S s)) by lia. reflexivity. }
  rewrite <- (G m O) at 2. apply map_ext. intros k. f_equal. lia.
Qed.
Lemma sl_firstn m n : 0 <= n <= len m -> sl m 0 n = firstn (Z.to_nat n) m.
Proof.
  intros H. rewrite <- (sl_all m) at 2. rewrite (sl_split m 0 (len m) n) by lia. rewrite firstn_app. pose proof (sl_len m 0 n ltac:(lia)) as L. unfold len in L.
  replace (Z.to_nat n - length (sl m 0 n))%nat with O by lia. cbn [firstn]. rewrite app_nil_r, firstn_all2 by lia. reflexivity.
Qed.
Lemma iota_zr n : iota n = zr 0 n. Proof. rewrite zr_nat. reflexivity. Qed.
Lemma iota_len n : 0 <= n -> len (iota n) = n. Proof. intros. rewrite iota_zr. apply zr_len; auto. Qed.
Lemma iota_word n k : 0 <= k < n -> word (iota n) k = k.
Proof. intros H. unfold word, iota. change 0 with (Z.of_nat O). rewrite map_nth. rewrite seq_nth by lia. lia. Qed.
Lemma iota_sl n a k : 0 <= a -> a + k <= n -> sl (iota n) a k = zr a k.
Proof. intros. unfold sl. rewrite <- (map_id (zr a k)) at 2. apply map_ext_in. intros v V. apply zr_in in V. apply iota_word. lia. Qed.

(** one shuffling step *)
Definition keeps (dp i sp l : Z) (m m' : list Z) : Prop := len m' = len m /\ forall k, 0 <= k -> ~ dp <= k < dp + i -> ~ sp <= k < sp + l -> word m' k = word m k.
Lemma shuf_perm dp sp l cnt m seed : state seed -> 0 <= cnt <= l -> 0 <= dp <= sp -> sp + l <= len m ->
  exists m' seed', shuffle cnt dp sp l m seed = Ok (m', seed') /\ state seed' /\ keeps dp cnt sp l m m' /\ Permutation (sl m' dp cnt ++ sl m' (sp + cnt) (l - cnt)) (sl m sp l).
Proof.
  intros S C D L. unfold shuffle.
  destruct (for_keep (shuf_step dp sp l) (fun i st => let '(m', sd) := st in state sd /\ keeps dp i sp l m m' /\ Permutation (sl m' dp i ++ sl m' (sp + i) (l - i)) (sl m sp l)) (Z.to_nat cnt) 0 (m, seed)) as ([m' sd]&E&P).
  - intros i [m1 s1] I (S1&(L1&K1)&P1). unfold shuf_step. draw S1. pose proof (wy2u0k_ok rnd (l - i) Hr ltac:(lia)) as J. set (j := wy2u0k rnd (l - i) + i) in *.
    rewrite !rdz_ok by lia. cbn [bind]. rewrite wrz_ok by lia. cbn [bind]. rewrite wrz_ok by (rewrite ?len_upd; lia). cbn [bind]. eexists. split; [reflexivity|]. cbn beta iota. split; [exact Hs|].
    set (a := word m1 (sp + i)) in *. set (c := word m1 (sp + j)) in *.
    assert (W : forall k, 0 <= k -> word (upd (upd m1 (Z.to_nat (sp + j)) a) (Z.to_nat (dp + i)) c) k = if k =? dp + i then c else if k =? sp + j then a else word m1 k).
    { intros k K. rewrite word_upd by (rewrite ?len_upd; lia). rewrite word_upd by lia. reflexivity. }
    set (m2 := upd (upd m1 _ a) _ c) in *. split; [split|].
    + unfold m2. rewrite !len_upd. exact L1.
    + intros k K N1 N2. rewrite W by lia. destruct (Z.eqb_spec k (dp + i)); [lia|]. destruct (Z.eqb_spec k (sp + j)); [lia|]. apply K1; lia.
    + eapply Permutation_trans; [|exact P1]. rewrite sl_snoc by lia. rewrite W by lia. rewrite Z.eqb_refl.
      rewrite (sl_ext m1 m2 dp i). 2:{ intros k K. rewrite W by lia. destruct (Z.eqb_spec k (dp + i)); [lia|]. destruct (Z.eqb_spec k (sp + j)); [lia|]. reflexivity. }
      rewrite (sl_cons m1 (sp + i) (l - i)) by lia. fold a. rewrite <- app_assoc. apply Permutation_app_head. cbn [app]. replace (sp + (i + 1)) with (sp + i + 1) by lia. replace (l - (i + 1)) with (l - i - 1) by lia.
      destruct (Z.eq_dec j i) as [Eji|N].
      * assert (Ec : c = a) by (unfold c, a; rewrite Eji; reflexivity). rewrite Ec. rewrite (sl_ext m1 m2); [apply Permutation_refl|]. intros k K. rewrite W by lia. destruct (Z.eqb_spec k (dp + i)); [lia|]. destruct (Z.eqb_spec k (sp + j)); [lia|]. reflexivity.
      * rewrite (sl_split m1 (sp + i + 1) (l - i - 1) (j - i - 1)), (sl_split m2 (sp + i + 1) (l - i - 1) (j - i - 1)) by lia.
        replace (sp + i + 1 + (j - i - 1)) with (sp + j) by lia. rewrite (sl_cons m1 (sp + j)), (sl_cons m2 (sp + j)) by lia. fold c.
        replace (word m2 (sp + j)) with a. 2:{ rewrite W by lia. destruct (Z.eqb_spec (sp + j) (dp + i)); [lia|]. rewrite Z.eqb_refl. reflexivity. }
        rewrite (sl_ext m1 m2 (sp + i + 1)), (sl_ext m1 m2 (sp + j + 1)). 2,3: intros k K; rewrite W by lia; destruct (Z.eqb_spec k (dp + i)); [lia|]; destruct (Z.eqb_spec k (sp + j)); [lia|]; reflexivity.
        set (U := sl m1 (sp + i + 1) _). set (V := sl m1 (sp + j + 1) _). eapply Permutation_trans; [apply Permutation_cons; [reflexivity|apply Permutation_sym, Permutation_middle]|].
        eapply Permutation_trans; [apply perm_swap|]. apply Permutation_cons; [reflexivity|]. apply Permutation_middle.
  - split; [exact S|]. split; [split; [reflexivity|auto]|]. rewrite sl_0 by lia. cbn [app]. replace (sp + 0) with sp by lia. replace (l - 0) with l by lia. apply Permutation_refl.
  - replace (0 + Z.of_nat (Z.to_nat cnt)) with cnt in P by lia. exists m', sd. split; [exact E|exact P].
Qed.

(** a swap of two elements *)
Lemma swap_perm m i j : 0 <= i < len m -> 0 <= j < len m -> Permutation (upd (upd m (Z.to_nat j) (word m i)) (Z.to_nat i) (word m j)) m.
Proof.
  intros I J. apply Permutation_sym. apply (Permutation_nth _ _ 0). cbv zeta. split; [rewrite !upd_length; reflexivity|].
  exists (fun k => if (k =? Z.to_nat i)%nat then Z.to_nat j else if (k =? Z.to_nat j)%nat then Z.to_nat i else k). unfold len in *. split; [|split].
  - intros k K. destruct (Nat.eqb_spec k (Z.to_nat i)); [lia|]. destruct (Nat.eqb_spec k (Z.to_nat j)); lia.
  - intros k q K Q. destruct (Nat.eqb_spec k (Z.to_nat i)), (Nat.eqb_spec q (Z.to_nat i)), (Nat.eqb_spec k (Z.to_nat j)), (Nat.eqb_spec q (Z.to_nat j)); lia.
  - intros k K. assert (G : forall l q, nth q l 0 = word l (Z.of_nat q)) by (intros; unfold word; rewrite Nat2Z.id; reflexivity). rewrite !G. rewrite word_upd by (rewrite ?len_upd; unfold len; lia). rewrite word_upd by (unfold len; lia).
    destruct (Nat.eqb_spec k (Z.to_nat i)), (Z.eqb_spec (Z.of_nat k) i); try lia; [f_equal; lia|]. destruct (Nat.eqb_spec k (Z.to_nat j)), (Z.eqb_spec (Z.of_nat k) j); try lia; f_equal; lia.
Qed.

Lemma flat2 {A} (f g : nat -> A) (d : A) : forall k s i, (i < k)%nat -> nth (2 * i) (flat_map (fun p => [f p; g p]) (seq s k)) d = f (s + i)%nat /\ nth (2 * i + 1) (flat_map (fun p => [f p; g p]) (seq s k)) d = g (s + i)%nat.
Proof.
  induction k as [|k IH]; intros s i I; [lia|]. cbn [seq flat_map app]. destruct i as [|i]; [cbn [nth Nat.mul Nat.add]; rewrite Nat.add_0_r; auto|].
  replace (2 * S i)%nat with (S (S (2 * i))) by lia. replace (S (S (2 * i)) + 1)%nat with (S (S (2 * i + 1))) by lia. cbn [nth]. replace (s + S i)%nat with (S s + i)%nat by lia. apply IH. lia.
Qed.
(** the split pass *)
Section split.
Context (n sd : Z) (N : 2^19 < n < 2^31) (SD : 0 <= sd <= 8).
Let M := 2^sd.
Definition st_ (p : Z) : Z := Z.shiftr (n * p) sd.
Definition en (p : Z) : Z := if p + 1 =? M then n else st_ (p + 1).
Lemma Mb : 1 <= M <= 256. Proof. unfold M. assert (H : sd = 0 \/ sd = 1 \/ sd = 2 \/ sd = 3 \/ sd = 4 \/ sd = 5 \/ sd = 6 \/ sd = 7 \/ sd = 8) by lia. destruct H as [->|[->|[->|[->|[->|[->|[->|[->| ->]]]]]]]]; lia. Qed.
Lemma st_M : st_ M = n. Proof. unfold st_, M. rewrite Z.shiftr_div_pow2 by lia. apply Z.div_mul. apply Z.pow_nonzero; lia. Qed.
Lemma st_0 : st_ 0 = 0. Proof. unfold st_. rewrite Z.mul_0_r. apply Z.shiftr_0_l. Qed.
Lemma st_mono p q : p <= q -> st_ p <= st_ q. Proof. intros. unfold st_. rewrite !Z.shiftr_div_pow2 by lia. apply Z.div_le_mono; [apply Z.pow_pos_nonneg; lia|]. nia. Qed.
Lemma en_st p : en p = st_ (p + 1). Proof. unfold en. destruct (Z.eqb_spec (p + 1) M) as [->|]; [rewrite st_M|]; reflexivity. Qed.
Definition cur (pos : list Z) (p : Z) : Z := word pos (2 * p).
Definition Pos (pos : list Z) : Prop := len pos = 2 * M /\ forall p, 0 <= p < M -> word pos (2 * p + 1) = st_ (p + 1) /\ st_ p <= cur pos p <= st_ (p + 1).
Definition segs (pos rp : list Z) (a k : Z) : list Z := flat_map (fun p => sl rp (st_ p) (cur pos p - st_ p)) (zr a k).
Lemma pos0 : Pos (split_pos n sd).
Proof.
  pose proof Mb as B. unfold Pos, split_pos. cbv zeta. fold M. split.
  - unfold len. assert (G : forall (f g : nat -> Z) k s, length (flat_map (fun p => [f p; g p]) (seq s k)) = (2 * k)%nat) by (intros f g; induction k as [|k IH]; intros s; [reflexivity|]; cbn [seq flat_map app length]; rewrite IH; lia).
    rewrite (G (fun p => Z.shiftr (n * Z.of_nat p) sd) (fun p => if Z.of_nat p + 1 =? M then n else Z.shiftr (n * (Z.of_nat p + 1)) sd)). lia.
  - intros p P. destruct (flat2 (fun p => Z.shiftr (n * Z.of_nat p) sd) (fun p => if Z.of_nat p + 1 =? M then n else Z.shiftr (n * (Z.of_nat p + 1)) sd) 0 (Z.to_nat M) 0 (Z.to_nat p) ltac:(lia)) as [E1 E2].
    unfold cur, word. replace (Z.to_nat (2 * p)) with (2 * Z.to_nat p)%nat by lia. replace (Z.to_nat (2 * p + 1)) with (2 * Z.to_nat p + 1)%nat by lia. rewrite E1, E2. cbn [Nat.add]. rewrite Z2Nat.id by lia. split; [apply en_st|].
    change (Z.shiftr (n * p) sd) with (st_ p). pose proof (st_mono p (p + 1) ltac:(lia)). lia.
Qed.
Lemma segs_ext pos pos' rp rp' a k : 0 <= a -> a + k <= M -> (forall p, a <= p < a + k -> cur pos' p = cur pos p) -> (forall p q, a <= p < a + k -> st_ p <= q < cur pos p -> word rp' q = word rp q) -> segs pos' rp' a k = segs pos rp a k.
Proof.
  intros A K C R. unfold segs. assert (G : forall l, (forall p, In p l -> a <= p < a + k) -> flat_map (fun p => sl rp' (st_ p) (cur pos' p - st_ p)) l = flat_map (fun p => sl rp (st_ p) (cur pos p - st_ p)) l).
  { induction l as [|p l IH]; intros H; [reflexivity|]. cbn [flat_map]. rewrite IH by (intros; apply H; right; auto). f_equal. assert (a <= p < a + k) by (apply H; left; auto). rewrite C by auto. apply sl_ext. intros q Q. apply (R p); auto. lia. }
  apply G. intros p. apply zr_in.
Qed.
Lemma segs_app pos rp a k q : 0 <= k -> 0 <= q -> segs pos rp a (k + q) = segs pos rp a k ++ segs pos rp (a + k) q.
Proof. intros. unfold segs. rewrite zr_app by lia. apply flat_map_app. Qed.
Lemma segs_1 pos rp a : segs pos rp a 1 = sl rp (st_ a) (cur pos a - st_ a). Proof. unfold segs. rewrite zr_1. cbn [flat_map]. apply app_nil_r. Qed.
Lemma segs_len pos rp : Pos pos -> forall k, 0 <= k <= M -> len (segs pos rp 0 k) <= st_ k.
Proof.
  intros (_&H) k K. replace k with (Z.of_nat (Z.to_nat k)) by lia. assert (Kn : Z.of_nat (Z.to_nat k) <= M) by lia. revert Kn. generalize (Z.to_nat k). clear k K. induction n0 as [|k IH]; intros Kn; [unfold segs; rewrite zr_0 by lia; pose proof st_0 as Z0; change (Z.of_nat 0) with 0; rewrite Z0; unfold len; cbn [flat_map length]; lia|].
  replace (Z.of_nat (S k)) with (Z.of_nat k + 1) by lia. rewrite segs_app, segs_1 by lia. unfold len in *. rewrite app_length. rewrite Nat2Z.inj_add. cbn [Z.add]. destruct (H (Z.of_nat k) ltac:(lia)) as (_&C). pose proof (sl_len rp (st_ (Z.of_nat k)) (cur pos (Z.of_nat k) - st_ (Z.of_nat k)) ltac:(lia)) as L. unfold len in L. change (0 + Z.of_nat k) with (Z.of_nat k). rewrite L. pose proof (IH ltac:(lia)). lia.
Qed.
Definition Split (pos rp : list Z) (i : Z) : Prop := 0 <= i /\ len rp = n /\ Pos pos /\ Permutation (segs pos rp 0 M) (zr 0 i).
Lemma Split_le pos rp i : Split pos rp i -> i <= n.
Proof. intros (I&L&P&H). pose proof Mb. pose proof (segs_len pos rp P M ltac:(lia)) as B. apply Permutation_length in H. unfold len in *. pose proof (zr_len 0 i I) as Z0. unfold len in Z0. rewrite st_M in B. lia. Qed.
Lemma place pos rp i k : Split pos rp i -> 0 <= k < M -> cur pos k <> word pos (2 * k + 1) ->
  Split (upd pos (Z.to_nat (2 * k)) (cur pos k + 1)) (upd rp (Z.to_nat (cur pos k)) i) (i + 1) /\ 0 <= cur pos k < n.
Proof.
  intros (I&L&(Lp&P)&H) K C. pose proof Mb as B. destruct (P k K) as (Ek&Ck). pose proof (st_mono 0 k ltac:(lia)) as Q0. pose proof (st_mono (k + 1) M ltac:(lia)) as QM. rewrite st_0 in Q0. rewrite st_M in QM. assert (R : 0 <= cur pos k < n) by lia. split; [|exact R].
  set (pos' := upd pos _ _). set (rp' := upd rp _ _).
  assert (Cu : forall p, 0 <= p < M -> cur pos' p = if p =? k then cur pos k + 1 else cur pos p). { intros p Hp. unfold cur at 1, pos'. rewrite word_upd by lia. destruct (Z.eqb_spec (2 * p) (2 * k)), (Z.eqb_spec p k); try lia; reflexivity. }
  split; [lia|]. split; [unfold rp'; rewrite len_upd; exact L|]. split; [split|].
  - unfold pos'. rewrite len_upd. exact Lp.
  - intros p Hp. unfold pos' at 1. rewrite word_upd by lia. destruct (Z.eqb_spec (2 * p + 1) (2 * k)); [lia|]. destruct (P p Hp) as (E&Q). split; [exact E|]. rewrite Cu by lia. destruct (Z.eqb_spec p k) as [->|]; lia.
  - rewrite zr_snoc by lia. assert (Dc : forall ps r, segs ps r 0 M = segs ps r 0 k ++ sl r (st_ k) (cur ps k - st_ k) ++ segs ps r (k + 1) (M - k - 1)). { intros ps r. replace M with (k + (1 + (M - k - 1))) at 1 by lia. rewrite !segs_app, segs_1 by lia. reflexivity. } rewrite Dc in H |- *. rewrite Cu, Z.eqb_refl by lia.
    replace (cur pos k + 1 - st_ k) with (cur pos k - st_ k + 1) by lia. rewrite sl_snoc by lia. replace (word rp' (st_ k + (cur pos k - st_ k))) with i. 2:{ unfold rp'. rewrite word_upd by lia. destruct (Z.eqb_spec (st_ k + (cur pos k - st_ k)) (cur pos k)); [reflexivity|lia]. }
    assert (W : forall q, 0 <= q -> q <> cur pos k -> word rp' q = word rp q). { intros q Q D. unfold rp'. rewrite word_upd by lia. destruct (Z.eqb_spec q (cur pos k)); [lia|reflexivity]. }
    rewrite (sl_ext rp rp'). 2:{ intros q Q. apply W; lia. }
    rewrite (segs_ext pos pos' rp rp' 0 k). 2-3: lia. 2:{ intros p Hp. rewrite Cu by lia. destruct (Z.eqb_spec p k); [lia|reflexivity]. } 2:{ intros p q Hp Q. destruct (P p ltac:(lia)) as (_&Cp). pose proof (st_mono (p + 1) k ltac:(lia)). pose proof (st_mono 0 p ltac:(lia)) as Q1. rewrite st_0 in Q1. apply W; lia. }
    rewrite (segs_ext pos pos' rp rp' (k + 1) (M - k - 1)). 2-3: lia. 2:{ intros p Hp. rewrite Cu by lia. destruct (Z.eqb_spec p k); [lia|reflexivity]. } 2:{ intros p q Hp Q. pose proof (st_mono (k + 1) p ltac:(lia)). apply W; lia. }
    eapply Permutation_trans; [|apply Permutation_app_tail; exact H]. rewrite <- !app_assoc. do 2 apply Permutation_app_head. apply Permutation_app_comm.
Qed.
Lemma split_bytes_ok : forall c r pos rp i, Split pos rp i -> (forall j, 0 <= j -> Z.shiftr r (8 * j) mod 256 < M) -> exists pos' rp' i' d, split_bytes c r pos rp i = Ok (pos', rp', i', d) /\ Split pos' rp' i' /\ (d = false -> i' = i + Z.of_nat c).
Proof.
  induction c as [|c IH]; intros r pos rp i S R; cbn [split_bytes]. - exists pos, rp, i, false. split; [reflexivity|]. split; [exact S|]. lia.
  - pose proof Mb as B. pose proof (R 0 ltac:(lia)) as R0. rewrite Z.mul_0_r, Z.shiftr_0_r in R0. pose proof (Z.mod_pos_bound r 256 ltac:(lia)) as Rb. set (k := r mod 256) in *. pose proof S as (I&L&(Lp&P)&H). rewrite !rdz_ok by lia. cbn [bind].
    destruct (Z.eqb_spec (word pos (2 * k)) (word pos (2 * k + 1))) as [E|D]; [exists pos, rp, i, true; split; [reflexivity|]; split; [exact S|discriminate]|].
    destruct (place pos rp i k S ltac:(lia) D) as (S'&C). unfold cur in S', C. rewrite wrz_ok by lia. cbn [bind]. rewrite wrz_ok by lia. cbn [bind].
    destruct (IH (Z.shiftr r 8) _ _ _ S') as (p1&r1&i1&d&E&S1&F). { intros j J. rewrite Z.shiftr_shiftr by lia. replace (8 + 8 * j) with (8 * (j + 1)) by lia. apply R. lia. }
    exists p1, r1, i1, d. split; [exact E|]. split; [exact S1|]. intros F0. rewrite F by auto. lia.
Qed.
Lemma split_loop_ok mm (MM : forall r j, 0 <= j -> Z.shiftr (Z.land r mm) (8 * j) mod 256 < M) : forall fuel pos rp i seed, Split pos rp i -> state seed -> n < i + 8 * Z.of_nat fuel ->
  exists pos' rp' i' seed', split_loop fuel mm pos rp i seed = Ok (pos', rp', i', seed') /\ Split pos' rp' i' /\ state seed'.
Proof.
  induction fuel as [|fuel IH]; intros pos rp i seed S Sd F. - pose proof (Split_le _ _ _ S). lia.
  - cbn [split_loop]. draw Sd. destruct (split_bytes_ok 8 (Z.land rnd mm) pos rp i S ltac:(intros; apply MM; auto)) as (p1&r1&i1&d&E&S1&D). rewrite E. cbn [bind]. destruct d; [eexists _, _, _, _; split; [reflexivity|]; split; auto|]. apply IH; auto. rewrite D by auto. lia.
Qed.
(** putting the partitions together *)
Lemma gather_ok : forall c p b rp i pos seed, Pos pos -> len rp = n -> state seed -> 0 <= b <= st_ p -> 0 <= p -> p + Z.of_nat c = M -> Permutation (sl rp 0 b ++ segs pos rp p (Z.of_nat c)) (zr 0 i) -> 0 <= i ->
  exists rp' seed', gather c p b (st_ p) pos rp seed = Ok (rp', seed') /\ len rp' = n /\ state seed' /\ Permutation (sl rp' 0 i) (zr 0 i).
Proof.
  induction c as [|c IH]; intros p b rp i pos seed Hp L Sd B P0 C H I; cbn [gather].
  - exists rp, seed. split; [reflexivity|]. split; [exact L|]. split; [exact Sd|]. unfold segs in H. rewrite zr_0, app_nil_r in H by lia. pose proof (Permutation_length H) as Q. pose proof (sl_len rp 0 b ltac:(lia)) as Q1. pose proof (zr_len 0 i I) as Q2. unfold len in Q1, Q2. replace b with i in H by lia. exact H.
  - pose proof Mb. pose proof Hp as (Lp&Hq). destruct (Hq p ltac:(lia)) as (Ee&Cp). rewrite rdz_ok by lia. cbn [bind]. change (word pos (2 * p)) with (cur pos p). pose proof (st_mono (p + 1) M ltac:(lia)) as Mn. rewrite st_M in Mn. set (l := cur pos p - st_ p) in *.
    destruct (shuf_perm b (st_ p) l l rp seed Sd ltac:(lia) ltac:(lia) ltac:(lia)) as (r1&s1&E&S1&(L1&K)&P1). rewrite E. cbn [bind]. rewrite rdz_ok by lia. cbn [bind]. rewrite Ee.
    apply (IH (p + 1) (b + l) r1 i pos s1); auto; try lia. rewrite sl_app by lia. cbn [Z.add].
    rewrite (sl_ext rp r1 0 b) by (intros k Kk; apply K; lia). rewrite (segs_ext pos pos rp r1 (p + 1) (Z.of_nat c)); try lia; auto.
    2:{ intros q k Q Kk. pose proof (st_mono (p + 1) q ltac:(lia)). apply K; lia. }
    rewrite (sl_0 r1 (st_ p + l)) in P1 by lia. rewrite app_nil_r in P1. eapply Permutation_trans; [|exact H]. rewrite <- app_assoc. apply Permutation_app_head. replace (Z.of_nat (S c)) with (1 + Z.of_nat c) by lia. rewrite segs_app, segs_1 by lia. fold l. apply Permutation_app_tail. exact P1.
Qed.
End split.

Lemma byte_mask sd r j : 0 <= sd <= 8 -> 0 <= j -> Z.shiftr (Z.land r (0x0101010101010101 * (2^sd - 1))) (8 * j) mod 256 < 2^sd.
Proof.
  intros S J. assert (B : 0 < 2^sd) by (apply Z.pow_pos_nonneg; lia). rewrite Z.shiftr_land. change 256 with (2^8). rewrite <- Z.land_ones by lia. rewrite <- Z.land_assoc.
  assert (E : Z.land (Z.shiftr (0x0101010101010101 * (2^sd - 1)) (8 * j)) (Z.ones 8) = Z.ones sd \/ Z.land (Z.shiftr (0x0101010101010101 * (2^sd - 1)) (8 * j)) (Z.ones 8) = 0).
  { destruct (Z.lt_ge_cases j 8) as [L|G].
    - assert (F : forallb (fun s => forallb (fun q => Z.land (Z.shiftr (0x0101010101010101 * (2^Z.of_nat s - 1)) (8 * Z.of_nat q)) (Z.ones 8) =? Z.ones (Z.of_nat s)) (seq 0 8)) (seq 0 9) = true) by (vm_compute; reflexivity).
      rewrite forallb_forall in F. specialize (F (Z.to_nat sd) ltac:(apply in_seq; lia)). cbn beta in F. rewrite forallb_forall in F. specialize (F (Z.to_nat j) ltac:(apply in_seq; lia)). cbn beta in F. rewrite !Z2Nat.id in F by lia. left. apply Z.eqb_eq. exact F.
    - right. rewrite Z.shiftr_div_pow2 by lia. rewrite Z.div_small; [apply Z.land_0_l|]. split; [nia|]. assert (2^sd <= 2^8) by (apply Z.pow_le_mono_r; lia). apply Z.lt_le_trans with (2^64); [|apply Z.pow_le_mono_r; lia]. lia. }
  destruct E as [-> | ->]; [|rewrite Z.land_0_r; exact B]. rewrite Z.land_ones by lia. apply Z.mod_pos_bound. exact B.
Qed.

Lemma big_deal_ok n junk seed : 2^19 < n < 2^31 -> len junk = n -> state seed -> exists l seed', big_deal n junk seed = Ok (l, seed') /\ state seed' /\ Permutation l (naturals n).
Proof.
  intros N L S. unfold big_deal. assert (G : 19 <= Z.log2 (n - 1)) by (change 19 with (Z.log2 (2^19)); apply Z.log2_le_mono; lia). set (lg := Z.log2 (n - 1) + 1). set (sd := if lg <? 16 + 8 then lg - 16 else 8). assert (SD : 0 <= sd <= 8) by (unfold sd; destruct (Z.ltb_spec lg (16 + 8)); unfold lg in *; lia). clearbody sd. clear lg G. cbv zeta.
  pose proof (Mb sd SD) as B. pose proof (pos0 n sd N SD) as P0.
  destruct (split_loop_ok n sd N SD (0x0101010101010101 * (2^sd - 1)) ltac:(intros; apply byte_mask; auto) (Z.to_nat n) (split_pos n sd) junk 0 seed) as (pos&rp&i&s1&E&Sp&S1); [|exact S|lia|].
  - split; [lia|]. split; [exact L|]. split; [exact P0|]. rewrite (zr_0 0 0) by lia. assert (Q : segs n sd (split_pos n sd) junk 0 (2^sd) = []); [|rewrite Q; constructor]. unfold segs. assert (F : forall l, (forall p, In p l -> 0 <= p < 2^sd) -> flat_map (fun p => sl junk (st_ n sd p) (cur (split_pos n sd) p - st_ n sd p)) l = []); [|apply F; intros p Hp; apply zr_in in Hp; lia].
    induction l as [|p l IH]; intros H; [reflexivity|]. cbn [flat_map]. rewrite IH by (intros; apply H; right; auto). rewrite sl_0; [reflexivity|]. assert (Hp : 0 <= p < 2^sd) by (apply H; left; auto).
    unfold cur, split_pos, word. cbv zeta. replace (Z.to_nat (2 * p)) with (2 * Z.to_nat p)%nat by lia. destruct (flat2 (fun p => Z.shiftr (n * Z.of_nat p) sd) (fun p => if Z.of_nat p + 1 =? 2^sd then n else Z.shiftr (n * (Z.of_nat p + 1)) sd) 0 (Z.to_nat (2^sd)) 0 (Z.to_nat p) ltac:(lia)) as [E1 _]. rewrite E1. cbn [Nat.add]. rewrite Z2Nat.id by lia. unfold st_. lia.
  - rewrite E. cbn [bind]. cbn beta iota. pose proof (Split_le n sd SD _ _ _ Sp) as Il. destruct Sp as (I&Lr&Pp&Hperm).
    destruct (gather_ok n sd N SD (Z.to_nat (2^sd)) 0 0 rp i pos s1) as (r2&s2&E2&L2&S2&H2); auto; try lia. { pose proof (st_0 n sd). lia. } { rewrite sl_0 by lia. cbn [app]. rewrite Z2Nat.id by lia. exact Hperm. }
    rewrite (st_0 n sd) in E2. rewrite E2. cbn [bind]. unfold fill_rest.
    destruct (for_keep (fun k rp => wrz rp k k) (fun k r => len r = n /\ Permutation (sl r 0 k) (zr 0 k)) (Z.to_nat (n - i)) i r2) as (r3&E3&L3&H3); [|split; auto|].
    { intros k r K (Lk&Hk). rewrite wrz_ok by lia. eexists. split; [reflexivity|]. split; [rewrite len_upd; auto|]. rewrite sl_snoc, zr_snoc by lia. rewrite word_upd by lia. cbn [Z.add]. rewrite Z.eqb_refl. apply Permutation_app_tail. rewrite (sl_ext r); [exact Hk|]. intros q Q. rewrite word_upd by lia. destruct (Z.eqb_spec q k); [lia|reflexivity]. }
    rewrite E3. cbn [bind]. replace (i + Z.of_nat (Z.to_nat (n - i))) with n in H3 by lia. rewrite <- L3 in H3 at 1. rewrite sl_all, zr_nat in H3. unfold mix_rest.
    match goal with |- context [for_ _ _ ?f _] => destruct (for_keep f (fun _ st => let '(r, s) := st in len r = n /\ state s /\ Permutation r (naturals n)) (Z.to_nat (n - i)) i (r3, s2)) as ([r4 s4]&E4&L4&S4&H4) end; [|auto|].
    { intros k [r s] K (Lk&Sk&Hk). draw Sk. pose proof (wy2u0k_ok rnd (1 + k) Hr ltac:(lia)) as J. set (j := wy2u0k rnd (1 + k)) in *. rewrite !rdz_ok by lia. cbn [bind]. rewrite wrz_ok by lia. cbn [bind]. rewrite wrz_ok by (rewrite len_upd; lia). cbn [bind]. eexists. split; [reflexivity|]. split; [rewrite !len_upd; auto|]. split; [exact Hs|]. eapply Permutation_trans; [|exact Hk]. apply swap_perm; lia. }
    exists r4, s4. split; [exact E4|]. split; auto.
Qed.

Lemma deal_ok n junk seed : 0 <= n < 2^31 -> len junk = n -> state seed -> exists l seed', deal_c1 n seed junk = Ok (l, seed') /\ state seed' /\ Permutation l (naturals n).
Proof.
  intros N L S. unfold deal_c1. destruct (Z.leb_spec n 1); [destruct (Z.ltb_spec n 0); [lia|]; exists (iota n), seed; auto|].
  destruct (Z.eqb_spec n 2) as [->|]. { draw S. eexists _, _. split; [reflexivity|]. split; [exact Hs|]. change (naturals 2) with [0; 1]. destruct (Z.odd rnd); [apply perm_swap|apply Permutation_refl]. }
  destruct (Z.leb_spec n (2^19)); [|apply big_deal_ok; auto; lia].
  pose proof (iota_len n ltac:(lia)) as Li. destruct (shuf_perm 0 0 n (n - 1) (iota n) seed S ltac:(lia) ltac:(lia) ltac:(lia)) as (m&s&E&Ss&(Lm&_)&P). exists m, s. split; [exact E|]. split; [exact Ss|].
  rewrite <- (sl_all m), Lm, Li, (sl_split m 0 n (n - 1)) by lia. eapply Permutation_trans; [exact P|]. rewrite iota_sl, zr_nat by lia. apply Permutation_refl.
Qed.
