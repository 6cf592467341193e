(** Proofs about sorting bits and about grading. *)
From Verif Require Import Base BitLemmas BitsModel BitsSpec BitsProof BitsProof2 TimsortModel TimsortSpec TimsortProof TimsortProof2 SortModel SortSpec RadixProof SortProof SortProof2.

(** ** bits *)
Lemma fill_words_ok k : forall rp i v, 0 <= i -> i + Z.of_nat k <= len rp ->
  exists r, fill_words k rp i v = Ok r /\ len r = len rp /\ forall b, 0 <= b -> mbit r b = if (i <=? b / 64) && (b / 64 <? i + Z.of_nat k) then Z.testbit v (b mod 64) else mbit rp b.
Proof.
  induction k as [|k IH]; intros rp i v Hi L; cbn [fill_words].
  - exists rp. split; [reflexivity|]. split; [reflexivity|]. intros b Hb. destruct (Z.leb_spec i (b / 64)), (Z.ltb_spec (b / 64) (i + Z.of_nat 0)); cbn; try reflexivity; lia.
  - rewrite wrz_ok by lia. cbn [bind]. destruct (IH (upd rp (Z.to_nat i) v) (i + 1) v) as (r&E&Lr&H); [lia|unfold len in *; rewrite upd_length; lia|].
    exists r. split; [exact E|]. split; [unfold len in *; rewrite upd_length in Lr; exact Lr|]. intros b Hb. rewrite H by assumption. rewrite mbit_upd by lia.
    destruct (Z.leb_spec (i + 1) (b / 64)), (Z.ltb_spec (b / 64) (i + 1 + Z.of_nat k)), (Z.leb_spec i (b / 64)), (Z.ltb_spec (b / 64) (i + Z.of_nat (S k))), (Z.eqb_spec (b / 64) i); cbn [andb]; try reflexivity; lia.
Qed.
Lemma count_true_le l : 0 <= count_true l <= Z.of_nat (length l).
Proof. induction l as [|b l IH]; cbn [count_true length]; [lia|]. destruct b; lia. Qed.
Lemma bits_of_length m p n : length (bits_of m p n) = Z.to_nat n.
Proof. unfold bits_of. now rewrite map_length, seq_length. Qed.
Lemma sort_bits_val (up : bool) xp n rp : 0 <= n -> n <= 64 * len xp -> len rp = (n + 63) / 64 ->
  let n0 := if up then n - count_true (bits_of xp 0 n) else count_true (bits_of xp 0 n) in
  exists r, sort_bits up xp n rp = Ok r /\ len r = len rp /\ forall b, 0 <= b < n -> mbit r b = (if up then n0 <=? b else b <? n0).
Proof.
  intros Hn L Lr n0. unfold sort_bits. rewrite bit_sum_spec by lia. cbn [bind]. fold n0.
  pose proof (count_true_le (bits_of xp 0 n)) as Cb. rewrite bits_of_length in Cb.
  assert (N0 : 0 <= n0 <= n) by (unfold n0; destruct up; lia). set (v0 := if up then 0 else Z.ones 64).
  assert (V0 : forall i, 0 <= i < 64 -> Z.testbit v0 i = negb up) by (intros i Hi; unfold v0; destruct up; [apply Z.testbit_0_l|rewrite tb_ones by lia; destruct (Z.ltb_spec i 64); [reflexivity|lia]]).
  destruct (fill_words_ok (Z.to_nat (n0 / 64)) rp 0 v0) as (r1&E1&L1&H1); [lia|lia|]. rewrite E1. cbn [bind].
  destruct (Z.ltb_spec (n0 / 64) ((n + 63) / 64)) as [Q|Q].
  - rewrite wrz_ok by lia. cbn [bind].
    destruct (fill_words_ok (Z.to_nat ((n + 63) / 64 - (n0 / 64 + 1))) (upd r1 (Z.to_nat (n0 / 64)) (Z.lxor v0 (shl (Z.ones 64) (n0 mod 64)))) (n0 / 64 + 1) (not64 v0)) as (r2&E2&L2&H2); [lia|unfold len in *; rewrite upd_length; lia|].
    exists r2. split; [exact E2|]. split; [unfold len in *; rewrite upd_length in L2; lia|]. intros b Hb. rewrite H2 by lia. rewrite mbit_upd by lia. rewrite H1 by lia.
    assert (Bm : 0 <= b mod 64 < 64) by (apply Z.mod_pos_bound; lia).
    destruct (Z.leb_spec (n0 / 64 + 1) (b / 64)).
    + destruct (Z.ltb_spec (b / 64) (n0 / 64 + 1 + Z.of_nat (Z.to_nat ((n + 63) / 64 - (n0 / 64 + 1))))); [|lia]. cbn [andb]. rewrite tb_not64 by lia. rewrite V0 by lia.
      destruct (Z.ltb_spec (b mod 64) 64); [|lia]. destruct up; cbn [negb xorb]; [destruct (Z.leb_spec n0 b)|destruct (Z.ltb_spec b n0)]; try reflexivity; lia.
    + cbn [andb]. destruct (Z.eqb_spec (b / 64) (n0 / 64)).
      * rewrite Z.lxor_spec, V0, tb_ones_shl by (try apply Z.mod_pos_bound; lia).
        destruct up; cbn [negb xorb]; destruct (Z.leb_spec (n0 mod 64) (b mod 64)); [destruct (Z.leb_spec n0 b)|destruct (Z.leb_spec n0 b)|destruct (Z.ltb_spec b n0)|destruct (Z.ltb_spec b n0)]; try reflexivity; lia.
      * destruct (Z.leb_spec 0 (b / 64)); [|lia]. destruct (Z.ltb_spec (b / 64) (0 + Z.of_nat (Z.to_nat (n0 / 64)))); [|lia]. cbn [andb]. rewrite V0 by lia.
        destruct up; cbn [negb]; [destruct (Z.leb_spec n0 b)|destruct (Z.ltb_spec b n0)]; try reflexivity; lia.
  - cbn [bind]. destruct (fill_words_ok (Z.to_nat ((n + 63) / 64 - n0 / 64)) r1 (n0 / 64) (not64 v0)) as (r2&E2&L2&H2); [lia|lia|].
    exists r2. split; [exact E2|]. split; [lia|]. intros b Hb. rewrite H2 by lia. rewrite H1 by lia.
    destruct (Z.leb_spec (n0 / 64) (b / 64)); [lia|]. cbn [andb]. destruct (Z.leb_spec 0 (b / 64)); [|lia]. destruct (Z.ltb_spec (b / 64) (0 + Z.of_nat (Z.to_nat (n0 / 64)))); [|lia]. cbn [andb].
    rewrite V0 by (apply Z.mod_pos_bound; lia). destruct up; cbn [negb]; [destruct (Z.leb_spec n0 b)|destruct (Z.ltb_spec b n0)]; try reflexivity; lia.
Qed.
Lemma bool_perm (l r : list bool) : length l = length r -> count_true l = count_true r -> Permutation l r.
Proof.
  assert (N : forall l, Permutation l (repeat true (Z.to_nat (count_true l)) ++ repeat false (length l - Z.to_nat (count_true l)))).
  { clear. induction l as [|b l IH]; [constructor|]. pose proof (count_true_le l). destruct b; cbn [count_true length].
    - replace (Z.to_nat (1 + count_true l)) with (S (Z.to_nat (count_true l))) by lia. cbn [repeat app]. constructor. replace (S (length l) - S (Z.to_nat (count_true l)))%nat with (length l - Z.to_nat (count_true l))%nat by lia. exact IH.
    - rewrite Z.add_0_l. replace (S (length l) - Z.to_nat (count_true l))%nat with (S (length l - Z.to_nat (count_true l))) by lia. cbn [repeat]. apply Permutation_cons_app. exact IH. }
  intros L C. eapply Permutation_trans; [apply N|]. apply Permutation_sym. eapply Permutation_trans; [apply N|]. rewrite L, C. apply Permutation_refl.
Qed.
Lemma count_step n n0 : 0 <= n0 <= n -> count_true (map (fun i => Z.of_nat i <? n0) (seq 0 (Z.to_nat n))) = n0.
Proof.
  intros H. replace (Z.to_nat n) with (Z.to_nat n0 + Z.to_nat (n - n0))%nat by lia. rewrite seq_app, map_app, count_app. rewrite (count_false _ (seq (0 + Z.to_nat n0) _)).
  - assert (G : forall l, (forall i, In i l -> Z.of_nat i < n0) -> count_true (map (fun i => Z.of_nat i <? n0) l) = Z.of_nat (length l)).
    { induction l as [|a l IH]; intros B; cbn [map count_true length]; [reflexivity|]. rewrite IH by (intros; apply B; cbn; auto). specialize (B a (or_introl eq_refl)). destruct (Z.ltb_spec (Z.of_nat a) n0); lia. }
    rewrite G; [rewrite seq_length; lia|]. intros i Hi. apply in_seq in Hi. lia.
  - intros i Hi. apply in_seq in Hi. destruct (Z.ltb_spec (Z.of_nat i) n0); [lia|reflexivity].
Qed.
Lemma count_negb (f : nat -> bool) l : count_true (map (fun i => negb (f i)) l) = Z.of_nat (length l) - count_true (map f l).
Proof. induction l as [|a l IH]; cbn [map count_true length]; [lia|]. rewrite IH. destruct (f a); cbn [negb]; lia. Qed.
Lemma sort_bits_ok up xp n rp : 0 <= n -> n <= 64 * len xp -> len rp = (n + 63) / 64 ->
  exists r, sort_bits up xp n rp = Ok r /\ len r = len rp /\ Permutation (bits_of xp 0 n) (bits_of r 0 n) /\ ordered (negb up) (bits_of r 0 n).
Proof.
  intros Hn L Lr. destruct (sort_bits_val up xp n rp Hn L Lr) as (r&E&Lr'&H). cbv zeta in H. set (n0 := if up then _ else _) in H.
  pose proof (count_true_le (bits_of xp 0 n)) as Cb. rewrite bits_of_length in Cb. assert (N0 : 0 <= n0 <= n) by (unfold n0; destruct up; lia).
  exists r. split; [exact E|]. split; [exact Lr'|]. split.
  - apply bool_perm; [now rewrite !bits_of_length|].
    assert (B : bits_of r 0 n = map (fun i => if up then negb (Z.of_nat i <? n0) else Z.of_nat i <? n0) (seq 0 (Z.to_nat n))).
    { unfold bits_of. apply map_ext_in. intros i Hi. apply in_seq in Hi. rewrite H by lia. replace (64 * 0 + Z.of_nat i) with (Z.of_nat i) by lia. destruct up; [destruct (Z.leb_spec n0 (Z.of_nat i)), (Z.ltb_spec (Z.of_nat i) n0); cbn; try reflexivity; lia|reflexivity]. }
    rewrite B. destruct up; [rewrite count_negb, seq_length|]; rewrite count_step by assumption; unfold n0; lia.
  - intros i j a b Hij Ha Hb. rewrite nth_bits_of in Ha, Hb. destruct (Z.ltb_spec (Z.of_nat i) n); [|discriminate]. destruct (Z.ltb_spec (Z.of_nat j) n); [|discriminate].
    injection Ha as <-. injection Hb as <-. rewrite !H by lia. destruct up; cbn [negb].
    + destruct (Z.leb_spec n0 (64 * 0 + Z.of_nat i)), (Z.leb_spec n0 (64 * 0 + Z.of_nat j)); try discriminate; auto; lia.
    + destruct (Z.ltb_spec (64 * 0 + Z.of_nat i) n0), (Z.ltb_spec (64 * 0 + Z.of_nat j) n0); try discriminate; auto; lia.
Qed.

(** ** grading by distribution *)
Definition pairs_from (i : Z) (xs : list Z) : list (Z * Z) := combine xs (map (fun j => i + Z.of_nat j) (seq 0 (length xs))).
Lemma pairs_from_cons i v t : pairs_from i (v :: t) = (v, i) :: pairs_from (i + 1) t.
Proof. unfold pairs_from. cbn [length seq map combine]. f_equal; [f_equal; lia|]. f_equal. rewrite <- seq_shift, map_map. apply map_ext. intros. lia. Qed.
Lemma pairs_from_0 xs : pairs_from 0 xs = withidx xs.
Proof. unfold pairs_from, withidx, idx. f_equal. Qed.
Lemma map_upd {A B} (f : A -> B) l i v : map f (upd l i v) = upd (map f l) i (f v).
Proof. revert i; induction l as [|a l IH]; intros [|i]; cbn; [reflexivity..|]. now rewrite IH. Qed.

Lemma ok2 {A} (a b a' b' : A) : a = a' -> b = b' -> Ok [a; b] = Ok [a'; b'].
Proof. congruence. Qed.
(* bits: the two counters are a table with two entries *)
Lemma bg_sim (up : bool) M xp : forall xs i rp dst r0 r1 c' d, 0 <= i ->
  (forall j v, nth_error xs j = Some v -> bitp_get xp 0 (i + Z.of_nat j) = Ok (v =? 1)) -> Forall (fun v => 0 <= v <= 1) xs -> rp = map snd dst ->
  0 <= r0 -> 0 <= r1 - r0 -> r0 + Z.of_nat (length xs) < M -> r1 - r0 + Z.of_nat (length xs) < M ->
  dist M [r0; r1 - r0] 0 (fun p => if up then Z.to_nat (fst p) else (1 - Z.to_nat (fst p))%nat) (pairs_from i xs) dst = Ok (c', d) ->
  bg_loop up (length xs) xp rp i r0 r1 = Ok (map snd d).
Proof.
  induction xs as [|v xs IH]; intros i rp dst r0 r1 c' d Hi Hb F -> H0 H1 B0 B1 D; cbn [bg_loop length].
  - cbn in D. injection D as _ <-. reflexivity.
  - rewrite pairs_from_cons in D. pose proof (Forall_inv F) as Fv. apply Forall_inv_tail in F. cbn [length] in B0, B1.
    rewrite <- (Z.add_0_r i) at 1. change 0 with (Z.of_nat 0) at 2. rewrite (Hb 0%nat v eq_refl). cbn [bind].
    set (b := if up then negb (v =? 1) else v =? 1).
    cbn [dist fst] in D. set (kk := if up then Z.to_nat v else (1 - Z.to_nat v)%nat) in D.
    assert (Kb : kk = if b then 0%nat else 1%nat) by (cbn beta in Fv; unfold kk, b; destruct up; destruct (Z.eqb_spec v 1); cbn [negb]; lia).
    rewrite Kb in D.
    assert (R : rd [r0; r1 - r0] (0 + (if b then 0 else 1)) = Ok (if b then r0 else r1 - r0)) by (destruct b; reflexivity). rewrite R in D. cbn [bind] in D.
    assert (W : wr [r0; r1 - r0] (0 + (if b then 0 else 1)) (((if b then r0 else r1 - r0) + 1) mod M) = Ok [r0 + (if b then 1 else 0); r1 + 1 - (r0 + (if b then 1 else 0))]).
    { destruct b; rewrite Z.mod_small by lia; unfold wr; cbn [length Nat.add Nat.ltb Nat.leb upd]; apply ok2; lia. }
    rewrite W in D. cbn [bind] in D.
    assert (Q : exists dst', wr dst (Z.to_nat (if b then r0 else r1 - r0)) (v, i) = Ok dst').
    { destruct (wr dst (Z.to_nat (if b then r0 else r1 - r0)) (v, i)); [eauto|discriminate|discriminate]. }
    destruct Q as [dst' E]. rewrite E in D. cbn [bind] in D.
    assert (Wz : wrz (map snd dst) (if b then r0 else r1 - r0) i = Ok (map snd dst')).
    { unfold wrz. destruct (Z.ltb_spec (if b then r0 else r1 - r0) 0); [destruct b; lia|]. clear -E. unfold wr in *. rewrite map_length. destruct (_ <? _)%nat; [|discriminate]. injection E as <-. rewrite map_upd. reflexivity. }
    rewrite Wz. cbn [bind].
    apply (IH (i + 1) (map snd dst') dst' (r0 + (if b then 1 else 0)) (r1 + 1) c' d); auto; try (destruct b; lia).
    intros j u Hj. replace (i + 1 + Z.of_nat j) with (i + Z.of_nat (S j)) by lia. apply Hb. exact Hj.
Qed.
Lemma cnt_off_two {A} (k : A -> nat) l : off k 1 l = length (filter (fun x => (k x =? 0)%nat) l).
Proof. unfold off. apply filter_length_ext. intros x _. destruct (Nat.ltb_spec (k x) 1), (Nat.eqb_spec (k x) 0); lia. Qed.
Lemma combine_self_snd {A} (l : list A) : map snd (combine l l) = l.
Proof. induction l as [|a l IH]; cbn; [reflexivity|]. now rewrite IH. Qed.
Definition b2i (b : bool) : Z := if b then 1 else 0.
Lemma grade_bool_ok up xp n rp : 0 <= n -> n <= 64 * len xp -> Z.of_nat (length rp) = n ->
  exists g, grade_bool up xp n rp = Ok g /\ grading (icmp up) (map b2i (bits_of xp 0 n)) g.
Proof.
  intros Hn L Lr. unfold grade_bool. rewrite bit_sum_spec by lia. cbn [bind].
  set (xs := map b2i (bits_of xp 0 n)). assert (Lx : length xs = Z.to_nat n) by (unfold xs; rewrite map_length; apply bits_of_length).
  assert (Fx : Forall (fun v => 0 <= v <= 1) xs) by (unfold xs; rewrite Forall_forall; intros v Hv; apply in_map_iff in Hv; destruct Hv as (b & <- & _); destruct b; cbn; lia).
  set (k := fun p : Z * Z => if up then Z.to_nat (fst p) else (1 - Z.to_nat (fst p))%nat).
  pose proof (count_true_le (bits_of xp 0 n)) as Cb. rewrite bits_of_length in Cb.
  set (n0 := if up then n - count_true (bits_of xp 0 n) else count_true (bits_of xp 0 n)).
  assert (Kp : forall p, In p (withidx xs) -> (k p < 2)%nat).
  { intros [v j] Hp. apply withidx_in in Hp. destruct Hp as [_ Hp]. apply nth_error_In in Hp. rewrite Forall_forall in Fx. specialize (Fx v Hp). unfold k. cbn [fst]. destruct up; lia. }
  assert (O1 : Z.of_nat (off k 1 (withidx xs)) = n0).
  { rewrite cnt_off_two. unfold n0, k. assert (G : forall (bs : list bool) i, Z.of_nat (length (filter (fun x : Z * Z => ((if up then Z.to_nat (fst x) else 1 - Z.to_nat (fst x)) =? 0)%nat) (pairs_from i (map b2i bs)))) = if up then Z.of_nat (length bs) - count_true bs else count_true bs).
    { induction bs as [|b bs IH]; intros i; [cbn; destruct up; reflexivity|]. cbn [map]. rewrite pairs_from_cons. cbn [filter fst count_true length]. specialize (IH (i + 1)). clear -IH. destruct up, b; unfold b2i at 1; try change (Z.to_nat 1) with 1%nat; try change (Z.to_nat 0) with 0%nat; try change (1 - 1 =? 0)%nat with true; try change (1 - 0 =? 0)%nat with false; try change (0 =? 0)%nat with true; try change (1 =? 0)%nat with false; cbn [length]; lia. }
    rewrite <- pairs_from_0. unfold xs. rewrite G, bits_of_length. destruct up; lia. }
  destruct (dist_ok 2 (2 * n + 2) k (fun i => i)) with (b := 0%nat) (l := withidx xs) (c := [0; n0 - 0]) (r := combine rp rp) as (c'&E&_&_); auto.
  - rewrite withidx_length, Lx. lia.
  - rewrite withidx_length, combine_length, Lx. lia.
  - intros i Hi. destruct i as [|[|i]]; [| |lia].
    + cbn [nth_error Nat.add]. f_equal. unfold off. rewrite filter_none by (intros; reflexivity). reflexivity.
    + cbn [nth_error Nat.add]. f_equal. change (off _ _ _) with (off k 1 (withidx xs)). rewrite O1. rewrite Z.mod_small; [lia|unfold n0; destruct up; lia].
  - fold n0. assert (BG : bg_loop up (length xs) xp rp 0 0 n0 = Ok (map snd (bucket k 2 (withidx xs)))).
    { apply (bg_sim up (2 * n + 2) xp xs 0 rp (combine rp rp) 0 n0 c'); try (unfold n0; destruct up; lia).
      - intros j v Hj. rewrite bitp_get_spec.
        + unfold xs in Hj. rewrite nth_error_map, nth_bits_of in Hj. destruct (Z.ltb_spec (Z.of_nat j) n); [|discriminate]. injection Hj as <-. cbn [option_map]. rewrite Z.add_0_l. do 2 f_equal. unfold b2i. destruct (mbit _ _); reflexivity.
        + lia.
        + lia.
        + apply nth_error_Some_lt in Hj. lia.
      - exact Fx.
      - now rewrite combine_self_snd.
      - rewrite pairs_from_0. exact E. }
    rewrite Lx in BG. rewrite BG. eexists. split; [reflexivity|]. apply pairs_grading; [apply bucket_perm; exact Kp|].
    apply ssorted_weak with (2 := bucket_sorted k _ 2 _ (withidx_sorted xs)). intros p q Hp Hq H. apply bucket_in in Hp, Hq. destruct Hp as [Hp _], Hq as [Hq _].
    destruct p as [v i], q as [u j]. apply withidx_in in Hp, Hq. destruct Hp as [_ Hp], Hq as [_ Hq]. apply nth_error_In in Hp, Hq. rewrite Forall_forall in Fx. pose proof (Fx v Hp). pose proof (Fx u Hq). unfold k, icmp in *. cbn [fst snd] in *. destruct up; lia.
Qed.
