From Verif Require Import Base BitLemmas TagModel NumSpec CompareModel BitsModel BitsSpec BitsProof BitsProof2 TimsortModel SortModel SortTopModel BinsModel.

Lemma filter_prefix {A} (P : A -> bool) : forall l k, (k <= length l)%nat -> (forall i a, nth_error l i = Some a -> P a = (i <? k)%nat) -> length (filter P l) = k.
Proof.
  induction l as [|x l IH]; intros k L H; [cbn in *; lia|]. pose proof (H 0%nat x eq_refl) as H0. cbn [filter]. destruct k as [|k].
  - rewrite H0. change (0 <? 0)%nat with false. cbn iota. apply IH; [lia|]. intros i a Hi. specialize (H (S i) a Hi). rewrite H. destruct i; reflexivity.
  - rewrite H0. change (0 <? S k)%nat with true. cbn iota. cbn [length]. f_equal. apply IH; [cbn in L; lia|]. intros i a Hi. specialize (H (S i) a Hi). rewrite H. reflexivity.
Qed.
Lemma rdg_ok {A} (m : list A) i : 0 <= i < Z.of_nat (length m) -> exists a, nth_error m (Z.to_nat i) = Some a /\ rdg m i = Ok a.
Proof.
  intros H. unfold rdg, rd. destruct (Z.ltb_spec i 0); [lia|]. destruct (nth_error m (Z.to_nat i)) eqn:E; [eauto|]. apply nth_error_None in E. lia.
Qed.
Lemma rdz_rdg m i : rdz m i = rdg m i. Proof. reflexivity. Qed.

(** the search without branches *)
Lemma bl_loop_ok (stay : Z -> bool) (w : list Z) n : 0 <= n <= Z.of_nat (length w) ->
  (forall i j a b, (i < j)%nat -> Z.of_nat j < n -> nth_error w i = Some a -> nth_error w j = Some b -> stay b = true -> stay a = true) ->
  forall fuel s l, 0 <= s -> 1 <= l -> s + l <= n + 1 -> l <= Z.of_nat fuel + 1 ->
  (forall i a, nth_error w i = Some a -> Z.of_nat i < s -> stay a = true) -> (forall i a, nth_error w i = Some a -> s + l - 1 <= Z.of_nat i < n -> stay a = false) ->
  exists r, bl_loop fuel stay w s l = Ok r /\ 0 <= r <= n /\ forall i a, nth_error w i = Some a -> Z.of_nat i < n -> stay a = (Z.of_nat i <? r).
Proof.
  intros Hn M. induction fuel as [|f IH]; intros s l Hs Hl B F Lo Hi; cbn [bl_loop]; cbn zeta.
  - destruct (Z.ltb_spec 0 (l / 2)); [lia|]. exists s. split; [reflexivity|]. split; [lia|]. intros i a E N. destruct (Z.ltb_spec (Z.of_nat i) s); [eapply Lo; eauto|eapply Hi; eauto; lia].
  - destruct (Z.ltb_spec 0 (l / 2)).
    + destruct (rdg_ok w (s + l / 2 - 1)) as (v&E&R); [lia|]. rewrite rdz_rdg, R. cbn [bind]. apply IH; try lia; destruct (stay v) eqn:Q; try lia.
      * intros i a Ei Li. destruct (Nat.eq_dec i (Z.to_nat (s + l / 2 - 1))) as [->|Ne]; [congruence|]. apply (M i (Z.to_nat (s + l / 2 - 1)) a v); auto; lia.
      * exact Lo.
      * intros i a Ei Li. apply (Hi i a Ei). lia.
      * intros i a Ei Li. destruct (stay a) eqn:Qa; [|reflexivity]. destruct (Nat.eq_dec i (Z.to_nat (s + l / 2 - 1))) as [->|Ne]; [congruence|].
        rewrite (M (Z.to_nat (s + l / 2 - 1)) i v a) in Q; auto; lia.
    + exists s. split; [reflexivity|]. split; [lia|]. intros i a E N. destruct (Z.ltb_spec (Z.of_nat i) s); [eapply Lo; eauto|eapply Hi; eauto; lia].
Qed.
Lemma bl_count (stay : Z -> bool) w : (forall i j a b, (i < j)%nat -> nth_error w i = Some a -> nth_error w j = Some b -> stay b = true -> stay a = true) ->
  bl_loop (length w + 1) stay w 0 (Z.of_nat (length w) + 1) = Ok (Z.of_nat (length (filter stay w))).
Proof.
  intros M. destruct (bl_loop_ok stay w (Z.of_nat (length w)) ltac:(lia)) with (fuel := (length w + 1)%nat) (s := 0) (l := Z.of_nat (length w) + 1) as (r&E&R&H); try lia.
  - intros. eapply M; eauto.
  - rewrite E. f_equal. rewrite (filter_prefix stay w (Z.to_nat r)); [lia|lia|]. intros i a Ei. rewrite (H i a Ei); [|apply nth_error_Some_lt in Ei; lia].
    destruct (Z.ltb_spec (Z.of_nat i) r), (Nat.ltb_spec i (Z.to_nat r)); auto; lia.
Qed.

(** the search on values *)
Lemma gen_loop_ok up (w : list gobj) c (P : gobj -> bool) :
  (forall v, In v w -> exists q, compare c v = Ok q /\ LT up q 0 = negb (P v)) ->
  (forall i j a b, (i < j)%nat -> nth_error w i = Some a -> nth_error w j = Some b -> P b = true -> P a = true) ->
  forall fuel s e, 0 <= s < e -> e <= Z.of_nat (length w) + 1 -> e - s <= Z.of_nat fuel + 1 ->
  (forall i a, nth_error w i = Some a -> Z.of_nat i < s -> P a = true) -> (forall i a, nth_error w i = Some a -> e - 1 <= Z.of_nat i -> P a = false) ->
  exists r, gen_loop fuel up w c s e = Ok r /\ 0 <= r <= Z.of_nat (length w) /\ forall i a, nth_error w i = Some a -> P a = (Z.of_nat i <? r).
Proof.
  intros C M. induction fuel as [|f IH]; intros s e Hs B F Lo Hi; cbn [gen_loop]; cbn zeta.
  - destruct (Z.ltb_spec 1 (e - s)); [lia|]. exists s. split; [reflexivity|]. split; [lia|]. intros i a E. destruct (Z.ltb_spec (Z.of_nat i) s); [eapply Lo; eauto|eapply Hi; eauto; lia].
  - destruct (Z.ltb_spec 1 (e - s)).
    + destruct (rdg_ok w ((s + e) / 2 - 1)) as (v&E&R); [lia|]. rewrite R. cbn [bind]. destruct (C v (nth_error_In _ _ E)) as (q&Eq&Q). rewrite Eq. cbn [bind]. rewrite Q. destruct (P v) eqn:Pv; cbn [negb].
      * apply IH; try lia; [|exact Hi]. intros i a Ei Li. destruct (Nat.eq_dec i (Z.to_nat ((s + e) / 2 - 1))) as [->|Ne]; [congruence|]. apply (M i (Z.to_nat ((s + e) / 2 - 1)) a v); auto; lia.
      * apply IH; try lia; [exact Lo|]. intros i a Ei Li. destruct (P a) eqn:Qa; [|reflexivity]. destruct (Nat.eq_dec i (Z.to_nat ((s + e) / 2 - 1))) as [->|Ne]; [congruence|].
        rewrite (M (Z.to_nat ((s + e) / 2 - 1)) i v a) in Pv; auto; lia.
    + exists s. split; [reflexivity|]. split; [lia|]. intros i a E. destruct (Z.ltb_spec (Z.of_nat i) s); [eapply Lo; eauto|eapply Hi; eauto; lia].
Qed.
Lemma gen_count up (w : list gobj) c (P : gobj -> bool) :
  (forall v, In v w -> exists q, compare c v = Ok q /\ LT up q 0 = negb (P v)) ->
  (forall i j a b, (i < j)%nat -> nth_error w i = Some a -> nth_error w j = Some b -> P b = true -> P a = true) ->
  gen_loop (length w + 1) up w c 0 (Z.of_nat (length w) + 1) = Ok (Z.of_nat (length (filter P w))).
Proof.
  intros C M. destruct (gen_loop_ok up w c P C M (length w + 1) 0 (Z.of_nat (length w) + 1)) as (r&E&R&H); try lia.
  - intros i a Ei. apply nth_error_Some_lt in Ei. lia.
  - rewrite E. f_equal. rewrite (filter_prefix P w (Z.to_nat r)); [lia|lia|]. intros i a Ei. rewrite (H i a Ei). destruct (Z.ltb_spec (Z.of_nat i) r), (Nat.ltb_spec i (Z.to_nat r)); auto; lia.
Qed.
Lemma mapM_ok {A B} (f : A -> res B) (g : A -> B) l : (forall a, In a l -> f a = Ok (g a)) -> mapM f l = Ok (map g l).
Proof. induction l as [|a l IH]; intros H; [reflexivity|]. cbn [mapM map]. rewrite (H a) by (left; auto). cbn [bind]. rewrite IH by (intros; apply H; right; auto). reflexivity. Qed.

(** the boundary in sorted bits *)
Definition cnt (e : bool) (l : list bool) : Z := Z.of_nat (length (filter (Bool.eqb e) l)).
Lemma cnt_app e a b : cnt e (a ++ b) = cnt e a + cnt e b.
Proof. unfold cnt. rewrite filter_app, app_length. lia. Qed.
Lemma cnt_all e l : (forall b, In b l -> b = e) -> cnt e l = Z.of_nat (length l).
Proof. unfold cnt. induction l as [|b l IH]; intros H; [reflexivity|]. cbn [filter]. rewrite (H b) by (left; auto). rewrite eqb_reflx. cbn [length]. rewrite !Nat2Z.inj_succ. rewrite IH; [lia|]. intros; apply H; right; auto. Qed.
Lemma cnt_none e l : (forall b, In b l -> b = negb e) -> cnt e l = 0.
Proof. unfold cnt. induction l as [|b l IH]; intros H; [reflexivity|]. cbn [filter]. rewrite (H b) by (left; auto). replace (Bool.eqb e (negb e)) with false by (destruct e; reflexivity). apply IH. intros; apply H; right; auto. Qed.
Lemma cnt_true e l : cnt e l = count_true (map (Bool.eqb e) l).
Proof. unfold cnt. induction l as [|b l IH]; [reflexivity|]. cbn [filter map count_true]. destruct (Bool.eqb e b); cbn [length]; lia. Qed.
Lemma bitsat_len m k n : length (bitsat m k n) = n. Proof. unfold bitsat. rewrite map_length, seq_length. reflexivity. Qed.
Lemma bitsat_in m k n b : In b (bitsat m k n) -> exists j, 0 <= j < Z.of_nat n /\ b = mbit m (k + j).
Proof. intros H. apply in_map_iff in H. destruct H as (i & <- & Hi). apply in_seq in Hi. exists (Z.of_nat i). split; [lia|reflexivity]. Qed.

Lemma word_const (e : bool) u : 0 <= u < 2 ^ 64 -> (forall b, 0 <= b < 64 -> Z.testbit u b = e) -> u = if e then Z.ones 64 else 0.
Proof.
  intros U H. apply Z.bits_inj'. intros b Hb. destruct (Z.ltb_spec b 64) as [L|L].
  - rewrite (H b) by lia. destruct e; [rewrite tb_ones by lia; destruct (Z.ltb_spec b 64); auto; lia|rewrite Z.testbit_0_l; reflexivity].
  - rewrite (Z.bits_above_log2 u b); [|lia|].
    + destruct e; [rewrite tb_ones by lia; destruct (Z.ltb_spec b 64); auto; lia|rewrite Z.testbit_0_l; reflexivity].
    + destruct (Z.eq_dec u 0) as [->|N]; [cbn; lia|]. apply Z.lt_le_trans with 64; [apply Z.log2_lt_pow2; lia|lia].
Qed.
Lemma word_nth m i : words m -> 0 <= i < len m -> nth_error m (Z.to_nat i) = Some (word m i).
Proof. intros _ H. unfold word, len in *. apply nth_error_nth'. lia. Qed.

Lemma bit_boundary_ok up x n : words x -> 0 < n <= 64 * len x -> ordered (negb up) (bits_of x 0 n) ->
  bit_boundary up x n = Ok (cnt (negb up) (bits_of x 0 n)).
Proof.
  intros W Hn O. set (e := negb up) in *. unfold bit_boundary. cbn zeta.
  assert (Om : forall i j, 0 <= i < j -> j < n -> mbit x j = e -> mbit x i = e).
  { intros i j Hi Hj E. specialize (O (Z.to_nat i) (Z.to_nat j) (mbit x i) (mbit x j)). rewrite !nth_bits_of in O. rewrite !Z2Nat.id in O by lia.
    destruct (Z.ltb_spec i n); [|lia]. destruct (Z.ltb_spec j n); [|lia]. change (64 * 0) with 0 in O. rewrite !Z.add_0_l in O. specialize (O ltac:(lia) eq_refl eq_refl). unfold e in *. destruct up; cbn [negb] in *; destruct (mbit x i), (mbit x j); auto; try discriminate; symmetry; auto. }
  set (stay := fun v : Z => negb (LT up (if up then 0 else Z.ones 64) v)).
  assert (St : forall v, 0 <= v < 2 ^ 64 -> stay v = true <-> v = if e then Z.ones 64 else 0).
  { intros v V. unfold stay, LT, e. change (Z.ones 64) with (2 ^ 64 - 1). destruct up; cbn [negb]; [destruct (Z.ltb_spec 0 v)|destruct (Z.ltb_spec v (2 ^ 64 - 1))]; cbn [negb]; split; intros; try discriminate; auto; lia. }
  set (nw := (n + 63) / 64). assert (Hnw : 0 < nw <= len x) by (unfold nw; lia).
  destruct (bl_loop_ok stay x nw) with (fuel := (length x + 2)%nat) (s := 0) (l := nw + 1) as (s&Es&Rs&Hs); try (unfold len in *; lia).
  { intros i j a b Hij Hj Ha Hb Sb. pose proof (nth_error_In _ _ Ha) as Ia. pose proof (nth_error_In _ _ Hb) as Ib. unfold words in W. rewrite Forall_forall in W. pose proof (W a Ia) as Wa. pose proof (W b Ib) as Wb.
    apply St in Sb; [|exact Wb]. apply St; [exact Wa|]. apply word_const; [exact Wa|]. intros k Hk.
    assert (Ea : a = word x (Z.of_nat i)) by (unfold word; rewrite Nat2Z.id; symmetry; apply nth_error_nth; exact Ha).
    assert (Eb : b = word x (Z.of_nat j)) by (unfold word; rewrite Nat2Z.id; symmetry; apply nth_error_nth; exact Hb).
    rewrite Ea, <- mbit_word by lia. apply Om with (64 * Z.of_nat j + 0); [lia|unfold nw in Hj; lia|]. rewrite mbit_word by lia. rewrite <- Eb, Sb. destruct e; reflexivity. }
  rewrite Es. cbn [bind].
  assert (All : forall k, 0 <= k < 64 * s -> mbit x k = e).
  { intros k Hk. pose proof (word_nth x (k / 64) W ltac:(lia)) as E. specialize (Hs _ _ E ltac:(lia)). rewrite Z2Nat.id in Hs by lia. destruct (Z.ltb_spec (k / 64) s); [|lia].
    apply St in Hs; [|apply word_range; exact W]. rewrite mbit_split, Hs. destruct e; [rewrite tb_ones by lia; destruct (Z.ltb_spec (k mod 64) 64); lia || reflexivity|apply Z.testbit_0_l]. }
  rewrite bits_of_at. change (64 * 0) with 0. destruct (Z.leb_spec n (64 * s)) as [L|L].
  { f_equal. rewrite cnt_all; [rewrite bitsat_len; lia|]. intros b Hb. apply bitsat_in in Hb. destruct Hb as (j&Hj&->). apply All. lia. }
  assert (Sn : s < nw) by (unfold nw; lia). rewrite rdz_ok by lia. cbn [bind].
  set (k := Z.min 64 (n - 64 * s)). assert (Hk : 0 < k <= 64) by (unfold k; lia).
  set (v0 := if up then not64 (word x s) else word x s).
  set (v := if n <=? 64 * s + 63 then _ else _).
  assert (Tv : forall i, 0 <= i < 64 -> Z.testbit v i = Bool.eqb e (mbit x (64 * s + i)) && (i <? k)).
  { intros i Hi. assert (T0 : Z.testbit v0 i = Bool.eqb e (mbit x (64 * s + i))).
    { rewrite mbit_word by lia. unfold v0, e. destruct up; cbn [negb]; [rewrite tb_not64 by lia; destruct (Z.ltb_spec i 64); [|lia]; destruct (Z.testbit (word x s) i); reflexivity|destruct (Z.testbit (word x s) i); reflexivity]. }
    unfold v. destruct (Z.leb_spec n (64 * s + 63)).
    - rewrite Z.land_spec, T0. f_equal. assert (Em : (- n) mod 64 = 64 - k) by (unfold k; lia). rewrite Em. rewrite Z.shiftr_spec by lia. rewrite tb_ones by lia.
      destruct (Z.ltb_spec (i + (64 - k)) 64), (Z.ltb_spec i k); auto; lia.
    - fold v0. rewrite T0. destruct (Z.ltb_spec i k); [rewrite andb_true_r; reflexivity|unfold k in *; lia]. }
  f_equal. replace (Z.to_nat n) with (Z.to_nat (64 * s) + (Z.to_nat k + Z.to_nat (n - 64 * s - k)))%nat by lia. rewrite !bitsat_app, !cnt_app.
  rewrite (cnt_all e (bitsat x 0 _)), bitsat_len; [|intros b Hb; apply bitsat_in in Hb; destruct Hb as (j&Hj&->); apply All; lia].
  rewrite !Z2Nat.id by lia. rewrite (cnt_none e (bitsat x (0 + 64 * s + k) _)).
  2:{ intros b Hb. apply bitsat_in in Hb. destruct Hb as (j&Hj&->). destruct (Bool.bool_dec (mbit x (0 + 64 * s + k + j)) (negb e)) as [Q|Q]; [exact Q|exfalso].
      assert (Qe : mbit x (0 + 64 * s + k + j) = e) by (destruct (mbit x _), e; cbn in *; congruence).
      assert (K64 : k = 64) by (unfold k in *; lia). pose proof (word_nth x s W ltac:(lia)) as E. specialize (Hs _ _ E ltac:(lia)). rewrite Z2Nat.id in Hs by lia. destruct (Z.ltb_spec s s); [lia|].
      assert (T : stay (word x s) = true); [|congruence]. apply St; [apply word_range; exact W|]. apply word_const; [apply word_range; exact W|]. intros b Hb. rewrite <- mbit_word by lia. apply Om with (0 + 64 * s + k + j); [lia|unfold k in *; lia|exact Qe]. }
  rewrite Z.add_0_r. f_equal. rewrite POPC_spec. replace 64%nat with (Z.to_nat k + Z.to_nat (64 - k))%nat at 1 by lia. rewrite seq_app, map_app, count_app.
  rewrite (count_false _ (seq (0 + _) _)); [|intros i Hi; apply in_seq in Hi; rewrite Tv by lia; destruct (Z.ltb_spec (Z.of_nat i) k); [lia|apply andb_false_r]].
  rewrite Z.add_0_r, cnt_true. f_equal. unfold bitsat. rewrite map_map. apply map_ext_in. intros i Hi. apply in_seq in Hi. rewrite Tv by lia. destruct (Z.ltb_spec (Z.of_nat i) k); [|lia]. rewrite andb_true_r. reflexivity.
Qed.
