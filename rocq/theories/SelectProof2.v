From Verif Require Import Base BitsModel BitsSpec BitsProof BitsProof2 SqueezeModel SqueezeProof WidenModel SlashModel SlashModel2 SlashModel3 SlashSpec SlashThm SelectModel SelectSpec SelectProof.
From Coq Require Import List Lia.

Lemma get_bits_at wp : forall n i, 0 <= i -> i + Z.of_nat n <= 64 * len wp -> get_bits n wp i = Ok (map (fun j => mbit wp (i + Z.of_nat j)) (seq 0 n)).
Proof.
  induction n as [|n IH]; intros i I L; [reflexivity|]. cbn [get_bits]. rewrite rdz_ok by lia. cbn [bind]. rewrite IH by lia. cbn [bind seq map].
  rewrite Z.add_0_r. f_equal. f_equal. rewrite <- seq_shift, map_map. apply map_ext. intros j. f_equal. lia.
Qed.
Lemma get_bits_ok wp n : 0 <= n <= 64 * len wp -> get_bits (Z.to_nat n) wp 0 = Ok (bits_of wp 0 n).
Proof. intros H. rewrite get_bits_at by lia. reflexivity. Qed.
Definition zb (b : bool) : Z := if b then 1 else 0.
Definition ob (b : bool) : option Z := Some (if b then 1 else 0).

Lemma any_word_ok wp : forall n i, 0 <= i -> i + Z.of_nat n <= len wp -> exists b, any_word n wp i = Ok b /\ (b = true <-> exists j, i <= j < i + Z.of_nat n /\ word wp j <> 0).
Proof.
  induction n as [|n IH]; intros i I L; cbn [any_word].
  - exists false. split; auto. split; [discriminate|]. intros (j & ? & _). lia.
  - rewrite rdz_ok by lia. cbn [bind]. destruct (word wp i =? 0) eqn:E; cbn [negb].
    + destruct (IH (i + 1)) as (b & -> & H); [lia|lia|]. exists b. split; auto. rewrite H. split; intros (j & J & W); exists j; split; auto; try lia. destruct (Z.eq_dec j i) as [->|]; [|lia]. apply Z.eqb_eq in E. contradiction.
    + exists true. split; auto. split; auto. intros _. exists i. split; [lia|]. apply Z.eqb_neq. exact E.
Qed.
Lemma word_nz wp j : words wp -> word wp j <> 0 -> exists b, 0 <= b < 64 /\ mbit wp (64 * j + b) = true.
Proof. intros W N. destruct (nonzero_bit 64 (word wp j)) as (b & B & T); [apply word_range; auto|exact N|]. exists b. split; [lia|]. rewrite mbit_word by lia. exact T. Qed.
Lemma any_bit_ok wp n : words wp -> 0 <= n <= 64 * len wp -> exists b,
  (do a <- any_word (Z.to_nat (n / 64)) wp 0; if a then Ok true else if n mod 64 =? 0 then Ok false else do w <- rdz wp (n / 64); Ok (negb (Z.land w (Z.ones (n mod 64)) =? 0))) = Ok b /\ (b = true <-> In true (bits_of wp 0 n)).
Proof.
  intros W N. destruct (any_word_ok wp (Z.to_nat (n / 64)) 0) as (a & -> & A); [lia|lia|]. cbn [bind].
  assert (Q : a = true -> In true (bits_of wp 0 n)).
  { intros T. apply A in T. destruct T as (j & J & Wj). apply word_nz in Wj; auto. destruct Wj as (b & B & T). apply in_bits_of. exists (64 * j + b). split; [lia|auto]. }
  destruct a; [exists true; split; auto; split; auto|]. clear Q.
  assert (Z0 : forall k, 0 <= k < 64 * (n / 64) -> mbit wp k = false).
  { intros k K. destruct (mbit wp k) eqn:E; auto. assert (false = true) as X; [|discriminate X]. apply A. exists (k / 64). split; [lia|]. intros Z. rewrite mbit_split, Z, Z.testbit_0_l in E. discriminate. }
  destruct (n mod 64 =? 0) eqn:M.
  - exists false. split; auto. split; [discriminate|]. intros I. apply in_bits_of in I. destruct I as (k & K & T). rewrite Z0 in T by lia. discriminate.
  - rewrite rdz_ok by lia. cbn [bind]. eexists. split; [reflexivity|]. rewrite negb_true_iff. split; intros H.
    + apply Z.eqb_neq in H. assert (R : 0 <= Z.land (word wp (n / 64)) (Z.ones (n mod 64)) < 2 ^ 64).
      { rewrite Z.land_ones by lia. assert (0 < 2 ^ (n mod 64)) by (apply Z.pow_pos_nonneg; lia). assert (2 ^ (n mod 64) <= 2 ^ 64) by (apply Z.pow_le_mono_r; lia). assert (0 <= word wp (n / 64) mod 2 ^ (n mod 64) < 2 ^ (n mod 64)) by (apply Z.mod_pos_bound; auto). lia. }
      destruct (nonzero_bit 64 _ R H) as (b & B & T). rewrite Z.land_spec, andb_true_iff in T. destruct T as (T & U).
      assert (b < n mod 64). { destruct (Z_lt_le_dec b (n mod 64)); auto. rewrite Z.ones_spec_high in U by lia. discriminate. }
      apply in_bits_of. exists (64 * (n / 64) + b). split; [lia|]. rewrite mbit_word by lia. exact T.
    + apply Z.eqb_neq. intros Z. apply in_bits_of in H. destruct H as (k & K & T). destruct (Z_lt_le_dec k (64 * (n / 64))); [rewrite Z0 in T by lia; discriminate|].
      rewrite mbit_split in T. replace (k / 64) with (n / 64) in T by lia. assert (Z.testbit (Z.land (word wp (n / 64)) (Z.ones (n mod 64))) (k mod 64) = true). { rewrite Z.land_spec, T, Z.ones_spec_low by lia. reflexivity. }
      rewrite Z, Z.testbit_0_l in H. discriminate.
Qed.
Lemma sel_const {A} (xs : list A) (f : bool -> A) l : (forall b, In b l -> cell_at xs (zb b) = Some (f b)) -> selection xs (map ob l) = Some (map f l).
Proof. induction l as [|b l IH]; intros H; [reflexivity|]. cbn [map]. rewrite sel_cons. unfold ob at 1. cbn [cell_of]. fold (zb b). rewrite H by (left; auto). rewrite IH by (intros; apply H; right; auto). reflexivity. Qed.
Lemma sel_bitw_ok {A} (xs : list A) wp n : (1 <= length xs)%nat -> words wp -> 0 <= n <= 64 * len wp -> sel_bitw xs (Z.of_nat (length xs)) wp n = or_error (selection xs (map ob (bits_of wp 0 n))).
Proof.
  intros X W N. unfold sel_bitw. rewrite (xat_in xs 0) by lia. destruct (cell_in xs 0) as (x0 & C0); [lia|]. rewrite C0. cbn [or_error bind].
  rewrite get_bits_ok by auto. destruct (any_bit_ok wp n W N) as (b & E & B). destruct (Z.of_nat (length xs) <? 2) eqn:L.
  - assert (E2 : (do a <- any_word (Z.to_nat (n / 64)) wp 0; do b <- (if a then Ok true else if n mod 64 =? 0 then Ok false else do w <- rdz wp (n / 64); Ok (negb (Z.land w (Z.ones (n mod 64)) =? 0))); if b then Err else Ok x0) = if b then Err else Ok x0).
    { destruct (any_word (Z.to_nat (n / 64)) wp 0); [|discriminate E|discriminate E]. cbn [bind] in *. rewrite E. reflexivity. }
    rewrite E2. destruct b; cbn [bind].
    + assert (I : In true (bits_of wp 0 n)) by (apply B; auto). rewrite (sel_none xs _ (ob true)); [reflexivity| |apply cell_out; lia]. apply in_map. exact I.
    + rewrite (sel_const xs (fun b : bool => if b then x0 else x0)); [reflexivity|]. intros b I. destruct b; [apply B in I; discriminate|exact C0].
  - rewrite (xat_in xs 1) by lia. destruct (cell_in xs 1) as (x1 & C1); [lia|]. rewrite C1. cbn [or_error bind].
    rewrite (sel_const xs (fun b : bool => if b then x1 else x0)); [reflexivity|]. intros [|] _; auto.
Qed.

Lemma tb_push b v : 0 <= b -> forall j, 0 <= j < 64 -> Z.testbit (to_u 64 (2 * b + zb v)) j = if j =? 0 then v else Z.testbit b (j - 1).
Proof.
  intros B j J. unfold to_u. rewrite Z.mod_pow2_bits_low by lia. destruct (Z.eqb_spec j 0) as [->|N].
  - destruct v; cbn [zb]; [apply Z.testbit_odd_0|rewrite Z.add_0_r; apply Z.testbit_even_0].
  - replace j with (Z.succ (j - 1)) at 1 by lia. destruct v; cbn [zb]; [apply Z.testbit_odd_succ; lia|rewrite Z.add_0_r; apply Z.testbit_even_succ; lia].
Qed.
Section Down.
Variables (xp : list Z) (xn : Z) (l : list Z).
Hypothesis XL : 0 <= xn <= 64 * len xp.
Hypothesis X62 : xn < 2 ^ 62.
Hypothesis R : Forall (fun z => - 2 ^ 63 <= z < 2 ^ 63) l.
Let W := Z.of_nat (length l).
Let e (i : Z) := nth (Z.to_nat i) l 0.
Let g (i : Z) := mbit xp (if e i <? 0 then xn + e i else e i).
Definition inb (z : Z) : bool := (- xn <=? z) && (z <? xn).
Lemma down_ok : forall n b rp, (n <= length l)%nat -> 0 <= b -> len rp = BIT_N W ->
  (forall j, 0 <= j < 64 -> Z.of_nat n + j < W -> Z.testbit b j = g (Z.of_nat n + j)) ->
  (forall i, 64 * ((Z.of_nat n + 63) / 64) <= i < W -> mbit rp i = g i) ->
  if forallb inb (firstn n l) then exists rp', bits_down n l xp xn b rp = Ok rp' /\ len rp' = len rp /\ (forall i, 0 <= i < W -> mbit rp' i = g i)
  else bits_down n l xp xn b rp = Err.
Proof using XL X62 R.
  induction n as [|m IH]; intros b rp Hn Hb Hl J1 J2.
  - cbn [firstn forallb bits_down]. exists rp. split; auto.
  - cbn [bits_down]. destruct (nth_error l m) as [z|] eqn:Nz; [|apply nth_error_None in Nz; lia].
    assert (Ez : e (Z.of_nat m) = z). { unfold e. rewrite Nat2Z.id. apply nth_error_nth. exact Nz. }
    assert (F : firstn (S m) l = firstn m l ++ [z]). { clear - Nz. revert l Nz. induction m as [|m IHm]; intros [|a l] Nz; try discriminate; cbn in *; [congruence|]. rewrite IHm by auto. reflexivity. }
    rewrite F, forallb_app. cbn [forallb]. rewrite andb_true_r. rewrite WRAP_spec; [|lia|]. 2:{ rewrite Forall_forall in R. apply R. eapply nth_error_In; eauto. }
    change ((- xn <=? z) && (z <? xn)) with (inb z). destruct (inb z) eqn:I; [|rewrite andb_false_r; reflexivity]. rewrite andb_true_r. cbn [bind].
    assert (K : 0 <= (if z <? 0 then xn + z else z) < xn). { unfold inb in I. destruct (z <? 0) eqn:?; lia. }
    rewrite rdz_ok by lia. cbn [bind]. rewrite <- mbit_split.
    assert (G : mbit xp (if z <? 0 then xn + z else z) = g (Z.of_nat m)) by (unfold g; rewrite Ez; reflexivity).
    rewrite G. fold (zb (g (Z.of_nat m))). set (b' := to_u 64 (2 * b + zb (g (Z.of_nat m)))).
    assert (T : forall j, 0 <= j < 64 -> Z.of_nat m + j < W -> Z.testbit b' j = g (Z.of_nat m + j)).
    { intros j Hj Hw. unfold b'. rewrite tb_push by auto. destruct (Z.eqb_spec j 0) as [->|]; [f_equal; lia|]. rewrite J1 by lia. f_equal. lia. }
    assert (B' : 0 <= b') by (unfold b', to_u; apply Z.mod_pos_bound; lia).
    assert (MW : Z.of_nat m < W) by (unfold W; lia). clearbody b'.
    destruct (Z.of_nat m mod 64 =? 0) eqn:M.
    + assert (LR : 0 <= Z.of_nat m / 64 < len rp). { rewrite Hl. unfold BIT_N. rewrite Z.shiftr_div_pow2 by lia. change (2 ^ 6) with 64. lia. }
      rewrite wrz_ok by exact LR. cbn [bind]. specialize (IH b' (upd rp (Z.to_nat (Z.of_nat m / 64)) b')). rewrite !len_upd in IH. apply IH; auto; [lia|].
      intros i Hi. rewrite mbit_upd by lia. destruct (Z.eqb_spec (i / 64) (Z.of_nat m / 64)).
      * rewrite T by lia. f_equal. lia.
      * apply J2. lia.
    + cbn [bind]. apply IH; auto; [lia|]. intros i Hi. apply J2. lia.
Qed.
End Down.
Lemma select_bits_ok junk xp xn l : 0 <= xn <= 64 * len xp -> xn < 2 ^ 62 -> Forall (fun z => - 2 ^ 63 <= z < 2 ^ 63) l ->
  (do rp <- select_bits junk l xp xn; get_bits (length l) rp 0) = or_error (selection (bits_of xp 0 xn) (map Some l)).
Proof.
  intros XL X62 R. unfold select_bits. set (W := Z.of_nat (length l)).
  assert (LB : len (repeat junk (Z.to_nat (BIT_N W))) = BIT_N W /\ W <= 64 * BIT_N W). { unfold len. rewrite repeat_length. unfold BIT_N. rewrite Z.shiftr_div_pow2 by lia. change (2 ^ 6) with 64. lia. }
  pose proof (down_ok xp xn l XL X62 R (length l) 0 (repeat junk (Z.to_nat (BIT_N W)))) as D. fold W in D. rewrite firstn_all in D.
  assert (LX : Z.of_nat (length (bits_of xp 0 xn)) = xn). { unfold bits_of. rewrite map_length, seq_length. lia. }
  destruct (forallb (inb xn) l) eqn:I.
  - destruct D as (rp & E & L & G); [lia|lia|tauto|intros; lia|intros; lia|]. rewrite E. cbn [bind]. destruct LB as [LB1 LB2]. rewrite LB1 in L.
    rewrite get_bits_at by lia. 
    assert (Q : selection (bits_of xp 0 xn) (map Some l) = Some (map (fun z => mbit xp (if z <? 0 then xn + z else z)) l)).
    { clear - I LX XL. induction l as [|z l IH]; [reflexivity|]. cbn [forallb] in I. apply andb_true_iff in I. destruct I as [I1 I2]. cbn [map]. rewrite sel_cons, IH by auto. cbn [cell_of].
      unfold cell_at. rewrite LX. unfold inb in I1. destruct ((0 <=? z) && (z <? xn)) eqn:C.
      - rewrite nth_bits_of. rewrite Z2Nat.id by lia. destruct (z <? xn) eqn:?; [|lia]. destruct (z <? 0) eqn:?; [lia|]. do 2 f_equal.
      - destruct ((- xn <=? z) && (z <? 0)) eqn:C2; [|lia]. rewrite nth_bits_of, Z2Nat.id by lia. destruct (xn + z <? xn) eqn:?; [|lia]. destruct (z <? 0) eqn:?; [|lia]. do 2 f_equal. }
    rewrite Q. cbn [or_error]. f_equal. apply nth_error_ext. intros i. destruct (nth_error l i) as [z|] eqn:N.
    + assert (i < length l)%nat by (apply nth_error_Some; congruence). rewrite !nth_error_map, N. rewrite (nth_error_nth' _ 0%nat) by (rewrite seq_length; auto). rewrite seq_nth by auto. cbn [option_map].
      rewrite G by (unfold W; lia). rewrite Nat.add_0_l, Z.add_0_l, Nat2Z.id, (nth_error_nth _ _ _ N). reflexivity.
    + assert (length l <= i)%nat by (apply nth_error_None; auto). rewrite !nth_error_map, N. cbn. replace (nth_error (seq 0 (length l)) i) with (@None nat); [reflexivity|]. symmetry. apply nth_error_None. rewrite seq_length. auto.
  - rewrite D; [|lia|lia|tauto|intros; lia|intros; lia]. cbn [bind]. 
    assert (exists z, In z l /\ inb xn z = false) as (z & Iz & O). { clear - I. induction l as [|a l IH]; [discriminate|]. cbn [forallb] in I. destruct (inb xn a) eqn:E; [|exists a; split; [left|]; auto]. destruct IH as (z & ? & ?); auto. exists z. split; [right|]; auto. }
    rewrite (sel_none _ _ (Some z)); [reflexivity|apply in_map; auto|]. apply cell_out. rewrite LX. unfold inb in O. lia.
Qed.

Lemma counts_CB wp n : counts (CB wp n) = map ob (bits_of wp 0 n).
Proof. reflexivity. Qed.
Lemma bits_inr (l : list bool) : inr 8 (map (fun b : bool => if b then 1 else 0) l).
Proof. apply Forall_forall. intros z H. apply in_map_iff in H. destruct H as (b & <- & _). change (2 ^ (8 - 1)) with 128. destruct b; lia. Qed.
Lemma ob_map (l : list bool) : map Some (map (fun b : bool => if b then 1 else 0) l) = map ob l.
Proof. rewrite map_map. reflexivity. Qed.
Lemma sel_gen_ok {A} boxed c (xs : list A) : Z.of_nat (length xs) < 2 ^ 62 -> cnts_ok c -> sel_gen boxed c xs (Z.of_nat (length xs)) = or_error (selection xs (counts c)).
Proof.
  intros X C. destruct c as [wp n|k l|l]; cbn [sel_gen].
  - destruct C as [W N]. rewrite get_bits_ok by exact N. cbn [bind]. destruct boxed; [apply sel_slow_ok; auto|apply sel_bits_ok; auto].
  - destruct C as [K R]. destruct boxed; [apply sel_slow_ok; auto|]. apply sel_each_ok; auto. apply (inr_63 k); auto.
  - apply sel_slow_ok; auto.
Qed.
Lemma sel_num_ok {A} cl rank1 narrow c (xs : list A) : (1 <= length xs)%nat -> Z.of_nat (length xs) < 2 ^ 62 -> cnts_ok c -> sel_num cl rank1 narrow c xs (Z.of_nat (length xs)) = or_error (selection xs (counts c)).
Proof.
  intros X1 X C. destruct c as [wp n|k l|l]; cbn [sel_num].
  - destruct rank1; [apply sel_bitw_ok; auto; apply C|]. destruct (negb _ && narrow); [|apply sel_gen_ok; auto].
    destruct C as [W N]. rewrite get_bits_ok by exact N. cbn [bind]. rewrite counts_CB, <- ob_map. destruct cl; [apply sel8_ok; auto; apply bits_inr| |]; (apply sel_each_ok; auto; apply (inr_63 8); auto; apply bits_inr).
  - destruct C as [K R]. destruct cl; [apply sel_ints_ok; auto|apply sel_each_ok; auto; apply (inr_63 k); auto|apply sel_gen_ok; auto; split; auto].
  - apply sel_gen_ok; auto.
Qed.
Lemma select_ok {A} sq cl rank1 narrow squoze c (xs : list A) : keeps sq -> cnts_ok c -> Z.of_nat (length xs) < 2 ^ 62 -> select_c2 sq cl rank1 narrow squoze c xs = or_error (selection xs (counts c)).
Proof.
  intros K C X. unfold select_c2. destruct (c_ia c =? 0) eqn:E0.
  - assert (counts c = []) as ->. { apply length_zero_iff_nil. pose proof (counts_len c C). lia. } reflexivity.
  - destruct (c_ia c =? 1) eqn:E1.
    + assert ((match c with CB wp n => do l <- get_bits 1 wp 0; Ok (map (fun b : bool => Some (if b then 1 else 0)) l) | CI _ l => Ok (map Some l) | CF l => Ok l end) = Ok (counts c)) as ->.
      { destruct c as [wp n|k l|l]; try reflexivity. cbn [c_ia] in *. apply Z.eqb_eq in E1. subst n. destruct C as [W N]. change 1%nat with (Z.to_nat 1). rewrite get_bits_ok by exact N. reflexivity. }
      cbn [bind]. apply sel_slow_ok; auto.
    + destruct (Z.of_nat (length xs) =? 0) eqn:X0.
      * assert (xs = []) as -> by (destruct xs; [reflexivity|cbn [length] in X0; lia]). pose proof (counts_len c C). destruct (counts c) as [|a l]; [cbn [length] in H; lia|].
        rewrite sel_cons. assert (cell_of (@nil A) a = None) as ->; [|reflexivity]. destruct a as [z|]; [|reflexivity]. apply cell_out. cbn [length]. lia.
      * destruct c as [wp n|k l|l]; try (apply sel_num_ok; auto; lia). destruct squoze; [apply sel_gen_ok; auto|]. destruct (K (CF l) C) as [Kc <-]. apply sel_num_ok; auto; lia.
Qed.
Lemma sel_num_bitx_ok junk rank1 c xp xn : 1 <= xn <= 64 * len xp -> xn < 2 ^ 62 -> cnts_ok c -> sel_num_bitx junk rank1 c xp xn = or_error (selection (bits_of xp 0 xn) (counts c)).
Proof.
  intros XL X C. unfold sel_num_bitx. rewrite get_bits_ok by lia. cbn [bind].
  assert (LX : Z.of_nat (length (bits_of xp 0 xn)) = xn). { unfold bits_of. rewrite map_length, seq_length. lia. }
  destruct c as [wp n|k l|l].
  - destruct C as [W N]. destruct rank1.
    + rewrite <- LX at 2. apply sel_bitw_ok; auto. lia.
    + rewrite get_bits_ok by exact N. cbn [bind]. rewrite counts_CB, <- ob_map.
      rewrite <- (select_bits_ok junk); auto; [|lia|apply (inr_63 8); auto; apply bits_inr]. rewrite map_length. unfold bits_of at 3. rewrite map_length, seq_length. reflexivity.
  - destruct C as [K R]. apply select_bits_ok; auto; [lia|]. apply (inr_63 k); auto.
  - rewrite <- LX at 2. apply sel_gen_ok; auto. lia.
Qed.
Lemma select_bitx_ok sq junk rank1 wide squoze c xp xn : keeps sq -> cnts_ok c -> 0 <= xn <= 64 * len xp -> xn < 2 ^ 62 -> select_c2_bitx sq junk rank1 wide squoze c xp xn = or_error (selection (bits_of xp 0 xn) (counts c)).
Proof.
  intros K C XL X. unfold select_c2_bitx. rewrite get_bits_ok by lia. cbn [bind].
  assert (LX : Z.of_nat (length (bits_of xp 0 xn)) = xn). { unfold bits_of. rewrite map_length, seq_length. lia. }
  destruct ((c_ia c <=? 1) || (xn =? 0) || wide) eqn:E; [apply select_ok; auto; lia|].
  destruct c as [wp n|k l|l]; try (apply sel_num_bitx_ok; auto; lia). destruct squoze; [rewrite <- LX at 2; apply sel_gen_ok; auto; lia|].
  destruct (K (CF l) C) as [Kc <-]. apply sel_num_bitx_ok; auto; lia.
Qed.
