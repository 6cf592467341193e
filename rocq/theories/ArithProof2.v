From Verif Require Import Base BitsModel BitsSpec BitsProof BitsProof2 SqueezeModel SqueezeProof SelectModel SelectProof SelectProof2 ArithModel ArithSpec ArithProof.
From Coq Require Import List Lia.

Lemma ck_ok K v : - 2 ^ (K - 1) <= v < 2 ^ (K - 1) -> ck K v = Ok v.
Proof. intros H. unfold ck. replace ((- 2 ^ (K - 1) <=? v) && (v <? 2 ^ (K - 1))) with true by lia. reflexivity. Qed.
Lemma ck_inv K v u : ck K v = Ok u -> v = u /\ - 2 ^ (K - 1) <= v < 2 ^ (K - 1).
Proof. unfold ck. destruct ((- 2 ^ (K - 1) <=? v) && (v <? 2 ^ (K - 1))) eqn:E; [|discriminate]. intros H. injection H as <-. lia. Qed.
Lemma mul_bound a b p : - p <= a < p -> - p <= b < p -> - (p * p) <= a * b <= p * p.
Proof. intros. nia. Qed.
Definition ik (k : Z) : Prop := k = 8 \/ k = 16 \/ k = 32.
Lemma half k : ik k -> (2 ^ (k - 1) = 128 \/ 2 ^ (k - 1) = 32768 \/ 2 ^ (k - 1) = 2147483648).
Proof. intros [-> | [-> | ->]]; auto. Qed.
(** one element: defined, in twice the width, and the double result if it fits *)
Lemma int_op_ok aa k o a b : ik k -> - 2 ^ (k - 1) <= a < 2 ^ (k - 1) -> - 2 ^ (k - 1) <= b < 2 ^ (k - 1) ->
  exists v, int_op aa (if k =? 32 then 64 else 32) o a b = Ok v /\ - 2 ^ (2 * k - 1) <= v < 2 ^ (2 * k - 1) /\ (- 2 ^ (k - 1) <= v < 2 ^ (k - 1) -> v = dbl_op o a b).
Proof.
  intros Hk A B. pose proof (mul_bound a b _ A B) as M.
  assert (Z53 : 2 ^ 53 = 9007199254740992) by reflexivity. assert (Z52 : 2 ^ 52 = 4503599627370496) by reflexivity.
  destruct o.
  1-3: destruct Hk as [-> | [-> | ->]]; [change (2 ^ (8 - 1)) with 128 in *; change (2 ^ (2 * 8 - 1)) with 32768|change (2 ^ (16 - 1)) with 32768 in *; change (2 ^ (2 * 16 - 1)) with 2147483648|change (2 ^ (32 - 1)) with 2147483648 in *; change (2 ^ (2 * 32 - 1)) with 9223372036854775808]; cbn [int_op Z.eqb Pos.eqb];
    rewrite ck_ok by (change (2 ^ (64 - 1)) with 9223372036854775808; change (2 ^ (32 - 1)) with 2147483648; lia); eexists; (split; [reflexivity|]); (split; [lia|]); intros; cbn [dbl_op]; symmetry; apply rnd_exact; lia.
  - destruct Hk as [-> | [-> | ->]]; [change (2 ^ (8 - 1)) with 128 in *; change (2 ^ (2 * 8 - 1)) with 32768|change (2 ^ (16 - 1)) with 32768 in *; change (2 ^ (2 * 16 - 1)) with 2147483648|change (2 ^ (32 - 1)) with 2147483648 in *; change (2 ^ (2 * 32 - 1)) with 9223372036854775808]; cbn [int_op Z.eqb Pos.eqb];
    rewrite ck_ok by (change (2 ^ (64 - 1)) with 9223372036854775808; change (2 ^ (32 - 1)) with 2147483648; lia); eexists; (split; [reflexivity|]); (split; [lia|]); intros; cbn [dbl_op]; symmetry; apply rnd_exact; lia.
  - pose proof (rnd_err (a + b)) as E1. pose proof (rnd_err (a * b)) as E2. pose proof (rnd_err (rnd (a + b) - rnd (a * b))) as E3. rewrite Z52 in *.
    destruct aa; cbn [int_op].
    + assert (V : - 2 ^ (2 * k - 1) <= dbl_op OOr a b < 2 ^ (2 * k - 1)).
      { cbn [dbl_op]. destruct Hk as [-> | [-> | ->]]; [change (2 ^ (8 - 1)) with 128 in *; change (2 ^ (2 * 8 - 1)) with 32768|change (2 ^ (16 - 1)) with 32768 in *; change (2 ^ (2 * 16 - 1)) with 2147483648|change (2 ^ (32 - 1)) with 2147483648 in *; change (2 ^ (2 * 32 - 1)) with 9223372036854775808]; lia. }
      rewrite ck_ok.
      * eexists. split; [reflexivity|]. split; auto.
      * destruct Hk as [-> | [-> | ->]]; cbn [Z.eqb Pos.eqb]; [change (2 ^ (2 * 8 - 1)) with 32768 in V; change (2 ^ (32 - 1)) with 2147483648; lia|exact V|exact V].
    + assert (G : exists v, (do s <- ck (if k =? 32 then 64 else 32) (a + b); do p <- ck (if k =? 32 then 64 else 32) (a * b); ck (if k =? 32 then 64 else 32) (s - p)) = Ok v /\ v = a + b - a * b /\ - 2 ^ (2 * k - 1) <= v < 2 ^ (2 * k - 1)).
      { clear E1 E2 E3. destruct Hk as [-> | [-> | ->]]; [change (2 ^ (8 - 1)) with 128 in *; change (2 ^ (2 * 8 - 1)) with 32768|change (2 ^ (16 - 1)) with 32768 in *; change (2 ^ (2 * 16 - 1)) with 2147483648|change (2 ^ (32 - 1)) with 2147483648 in *; change (2 ^ (2 * 32 - 1)) with 9223372036854775808]; cbn [Z.eqb Pos.eqb];
        (rewrite (ck_ok _ (a + b)) by (change (2 ^ (64 - 1)) with 9223372036854775808; change (2 ^ (32 - 1)) with 2147483648; lia)); cbn [bind];
        (rewrite (ck_ok _ (a * b)) by (change (2 ^ (64 - 1)) with 9223372036854775808; change (2 ^ (32 - 1)) with 2147483648; lia)); cbn [bind];
        (rewrite ck_ok by (change (2 ^ (64 - 1)) with 9223372036854775808; change (2 ^ (32 - 1)) with 2147483648; lia)); eexists; (split; [reflexivity|]); (split; [reflexivity|]); lia. }
      destruct G as (v & -> & -> & V). eexists. split; [reflexivity|]. split; auto. intros F. cbn [dbl_op]. clear E1 E2 E3 V.
      rewrite (rnd_exact (a + b)), (rnd_exact (a * b)), rnd_exact; auto; destruct (half k Hk) as [H | [H | H]]; rewrite H in *; lia.
  - cbn [int_op dbl_op]. eexists. split; [reflexivity|]. split; auto. destruct Hk as [-> | [-> | ->]]; [change (2 ^ (8 - 1)) with 128 in *; change (2 ^ (2 * 8 - 1)) with 32768|change (2 ^ (16 - 1)) with 32768 in *; change (2 ^ (2 * 16 - 1)) with 2147483648|change (2 ^ (32 - 1)) with 2147483648 in *; change (2 ^ (2 * 32 - 1)) with 9223372036854775808]; destruct (b <? a); lia.
  - cbn [int_op dbl_op]. eexists. split; [reflexivity|]. split; auto. destruct Hk as [-> | [-> | ->]]; [change (2 ^ (8 - 1)) with 128 in *; change (2 ^ (2 * 8 - 1)) with 32768|change (2 ^ (16 - 1)) with 32768 in *; change (2 ^ (2 * 16 - 1)) with 2147483648|change (2 ^ (32 - 1)) with 2147483648 in *; change (2 ^ (2 * 32 - 1)) with 9223372036854775808]; destruct (b <? a); lia.
Qed.
Lemma map2_cons {A B C} (f : A -> B -> C) a l b m : map2 f (a :: l) (b :: m) = f a b :: map2 f l m.
Proof. reflexivity. Qed.
Lemma to_s_fits k v : 0 < k -> to_s k v = v <-> - 2 ^ (k - 1) <= v < 2 ^ (k - 1).
Proof.
  intros K. split; [|apply to_s_id; auto]. intros H. rewrite <- H. unfold to_s. assert (0 < 2 ^ k) by (apply Z.pow_pos_nonneg; lia). assert (2 ^ k = 2 * 2 ^ (k - 1)) by (rewrite <- Z.pow_succ_r by lia; f_equal; lia).
  pose proof (Z.mod_pos_bound (v + 2 ^ (k - 1)) (2 ^ k) H0). lia.
Qed.
Lemma do_int_ok aa k o : ik k -> forall w x, length w = length x -> inr k w -> inr k x ->
  do_int aa k o w x = Ok None \/ (do_int aa k o w x = Ok (Some (map2 (dbl_op o) w x)) /\ inr k (map2 (dbl_op o) w x)).
Proof.
  intros K. assert (K0 : 0 < k) by (destruct K as [-> | [-> | ->]]; lia). induction w as [|a w IH]; intros [|b x] L W X; try discriminate; [right; split; [reflexivity|constructor]|].
  inversion W as [|? ? Wa Ww]; subst. inversion X as [|? ? Xb Xx]; subst. cbn [do_int]. destruct (int_op_ok aa k o a b K Wa Xb) as (v & -> & V2 & V). cbn [bind].
  rewrite (to_s_id (2 * k)) by lia. destruct (Z.eqb_spec v (to_s k v)) as [E|E]; cbn [negb]; [|left; reflexivity].
  assert (F : - 2 ^ (k - 1) <= v < 2 ^ (k - 1)) by (apply to_s_fits; auto). apply V in F as F2. rewrite F2 in *. cbn [length] in L.
  destruct (IH x ltac:(lia) Ww Xx) as [E1|[E1 I]]; rewrite E1; cbn [bind]; [left; reflexivity|]. right. rewrite map2_cons. split; [reflexivity|]. constructor; auto.
Qed.
Lemma do_dbl_ok o : forall w x, length w = length x -> do_dbl o w x = Ok (map2 (dbl_op o) w x).
Proof. induction w as [|a w IH]; intros [|b x] L; try discriminate; [reflexivity|]. cbn [do_dbl length] in *. rewrite IH by lia. reflexivity. Qed.

Lemma elems_ok a : arr_ok a -> elems a = Ok (vals a).
Proof. destruct a as [wp n|k l|l]; cbn [elems vals]; auto. intros [W N]. rewrite get_bits_ok by exact N. reflexivity. Qed.
Lemma vals_len a : arr_ok a -> Z.of_nat (length (vals a)) = a_ia a.
Proof. destruct a as [wp n|k l|l]; cbn [a_ia vals]; auto. intros [W N]. unfold bits_of. rewrite !map_length, seq_length. lia. Qed.
Lemma bits_in k (l : list bool) : ik k -> inr k (map (fun b : bool => if b then 1 else 0) l).
Proof. intros K. apply Forall_forall. intros z H. apply in_map_iff in H. destruct H as (b & <- & _). destruct (half k K) as [-> | [-> | ->]]; destruct b; lia. Qed.
Lemma int_double k l : ik k -> inr k l -> Forall is_double l.
Proof. intros K. apply Forall_impl. intros z H. apply small_double. change (2 ^ 53) with 9007199254740992. destruct (half k K) as [E | [E | E]]; rewrite E in H; lia. Qed.
Lemma bit_double (l : list bool) : Forall is_double (map (fun b : bool => if b then 1 else 0) l).
Proof. apply (int_double 8); [left; auto|]. apply bits_in. left; auto. Qed.
Lemma vals_double a : arr_ok a -> Forall is_double (vals a).
Proof. destruct a as [wp n|k l|l]; cbn [vals arr_ok]; auto; [intros; apply bit_double|intros [K R]; apply (int_double k); auto]. Qed.
Lemma dbl_op_double o a b : is_double a -> is_double b -> is_double (dbl_op o a b).
Proof. intros A B. destruct o; cbn [dbl_op]; try apply rnd_double; destruct (b <? a); auto. Qed.
Lemma map2_double o w x : Forall is_double w -> Forall is_double x -> Forall is_double (map2 (dbl_op o) w x).
Proof.
  intros W X. apply Forall_forall. intros z H. apply in_map_iff in H. destruct H as ([a b] & <- & I). cbn [fst snd]. rewrite Forall_forall in W, X. apply dbl_op_double; [apply W|apply X]; [eapply in_combine_l|eapply in_combine_r]; eauto.
Qed.
Definition result (o : op) (w x : list Z) (r : res arr) : Prop := exists a, r = Ok a /\ arr_ok a /\ vals a = map2 (dbl_op o) w x.
Section R.
Variables (sq : arr -> arr) (o : op).
Hypothesis KS : keeps_arr sq.
Lemma sq_result w x : length w = length x -> Forall is_double w -> Forall is_double x -> result o w x (do r <- do_dbl o w x; Ok (sq (AF r))).
Proof using KS. intros L W X. rewrite do_dbl_ok by auto. cbn [bind]. eexists. split; [reflexivity|]. apply (KS (AF _)). apply map2_double; auto. Qed.
Lemma f_result w x : length w = length x -> Forall is_double w -> Forall is_double x -> result o w x (do r <- do_dbl o w x; Ok (AF r)).
Proof using. intros L W X. rewrite do_dbl_ok by auto. cbn [bind]. eexists. split; [reflexivity|]. split; [apply map2_double; auto|reflexivity]. Qed.
Lemma i_result aa k w x : ik k -> length w = length x -> inr k w -> inr k x -> result o w x (do r <- do_int aa k o w x; match r with Some r => Ok (AI k r) | None => recd sq o w x end).
Proof using KS.
  intros K L W X. destruct (do_int_ok aa k o K w x L W X) as [-> | [-> I]]; cbn [bind].
  - apply sq_result; auto; apply (int_double k); auto.
  - eexists. split; [reflexivity|]. split; [split; auto|reflexivity].
Qed.
End R.
Lemma zip_words_ok f wp xp : forall n i, 0 <= i -> i + Z.of_nat n <= len wp -> i + Z.of_nat n <= len xp -> exists r, zip_words f n wp xp i = Ok r /\ length r = n /\ (forall j, (j < n)%nat -> nth j r 0 = f (word wp (i + Z.of_nat j)) (word xp (i + Z.of_nat j))).
Proof.
  induction n as [|n IH]; intros i I W X; cbn [zip_words]; [exists []; repeat split; auto; intros; lia|].
  rewrite !rdz_ok by lia. cbn [bind]. destruct (IH (i + 1)) as (r & -> & L & N); [lia|lia|lia|]. cbn [bind]. eexists. split; [reflexivity|]. split; [cbn; lia|].
  intros [|j] J; cbn [nth]; [rewrite Z.add_0_r; reflexivity|]. rewrite N by lia. do 2 f_equal; lia.
Qed.
Lemma land_word a b : 0 <= a < 2 ^ 64 -> 0 <= b < 2 ^ 64 -> 0 <= Z.land a b < 2 ^ 64.
Proof.
  intros A B. split; [apply Z.land_nonneg; lia|]. destruct (Z.eq_dec (Z.land a b) 0) as [->|N]; [lia|]. apply Z.log2_lt_pow2; [assert (0 <= Z.land a b) by (apply Z.land_nonneg; lia); lia|].
  pose proof (Z.log2_land a b ltac:(lia) ltac:(lia)). assert (Z.log2 a < 64) by (destruct (Z.eq_dec a 0) as [->|]; [reflexivity|apply Z.log2_lt_pow2; lia]). lia.
Qed.
Lemma lor_word a b : 0 <= a < 2 ^ 64 -> 0 <= b < 2 ^ 64 -> 0 <= Z.lor a b < 2 ^ 64.
Proof.
  intros A B. split; [apply Z.lor_nonneg; lia|]. destruct (Z.eq_dec (Z.lor a b) 0) as [->|N]; [lia|]. apply Z.log2_lt_pow2; [assert (0 <= Z.lor a b) by (apply Z.lor_nonneg; lia); lia|].
  rewrite Z.log2_lor by lia. assert (Z.log2 a < 64) by (destruct (Z.eq_dec a 0) as [->|]; [reflexivity|apply Z.log2_lt_pow2; lia]). assert (Z.log2 b < 64) by (destruct (Z.eq_dec b 0) as [->|]; [reflexivity|apply Z.log2_lt_pow2; lia]). lia.
Qed.
Lemma bits_arith o p q : bit_kind o <> 0 -> dbl_op o (zb p) (zb q) = zb (if bit_kind o =? 1 then p || q else p && q).
Proof. destruct o, p, q; intros H; try (exfalso; apply H; reflexivity); vm_compute; reflexivity. Qed.
Lemma bit_result o wp xp n : bit_kind o <> 0 -> arr_ok (AB wp n) -> arr_ok (AB xp n) ->
  result o (vals (AB wp n)) (vals (AB xp n)) (do r <- zip_words (if bit_kind o =? 1 then Z.lor else Z.land) (Z.to_nat (BIT_N n)) wp xp 0; Ok (AB r n)).
Proof.
  intros K [W N] [X M]. fold (len wp) in N. fold (len xp) in M. set (f := if bit_kind o =? 1 then Z.lor else Z.land).
  assert (BN : 0 <= BIT_N n /\ BIT_N n <= len wp /\ BIT_N n <= len xp /\ n <= 64 * BIT_N n). { unfold BIT_N. rewrite Z.shiftr_div_pow2 by lia. change (2 ^ 6) with 64. lia. }
  destruct (zip_words_ok f wp xp (Z.to_nat (BIT_N n)) 0) as (r & -> & L & R); [lia|lia|lia|]. cbn [bind]. eexists. split; [reflexivity|].
  assert (LR : len r = BIT_N n) by (unfold len; lia). split.
  - split; [|fold (len r); lia]. unfold words. apply Forall_forall. intros z Iz. apply In_nth with (d := 0) in Iz. destruct Iz as (j & J & <-). rewrite R by lia. unfold f. destruct (bit_kind o =? 1); [apply lor_word|apply land_word]; apply word_range; auto.
  - cbn [vals]. unfold bits_of. rewrite !map_map. unfold map2. apply nth_error_ext. intros i. rewrite !nth_error_map. 
    destruct (Nat.lt_ge_cases i (Z.to_nat n)) as [I|I].
    + assert (S : nth_error (seq 0 (Z.to_nat n)) i = Some i). { rewrite (nth_error_nth' _ 0%nat) by (rewrite seq_length; auto). rewrite seq_nth by auto. reflexivity. }
      rewrite S. cbn [option_map]. 
      assert (C : nth_error (combine (map (fun x => if mbit wp (64 * 0 + Z.of_nat x) then 1 else 0) (seq 0 (Z.to_nat n))) (map (fun x => if mbit xp (64 * 0 + Z.of_nat x) then 1 else 0) (seq 0 (Z.to_nat n)))) i = Some (zb (mbit wp (64 * 0 + Z.of_nat i)), zb (mbit xp (64 * 0 + Z.of_nat i)))).
      { rewrite (nth_error_nth' _ (0, 0)) by (rewrite combine_length, !map_length, seq_length; lia). rewrite combine_nth by (rewrite !map_length; auto). f_equal. f_equal; apply nth_error_nth; rewrite nth_error_map, S; reflexivity. }
      rewrite C. cbn [option_map fst snd]. rewrite bits_arith by auto. rewrite Z.add_0_l. f_equal. unfold zb. 
      replace (mbit r (Z.of_nat i)) with (if bit_kind o =? 1 then mbit wp (Z.of_nat i) || mbit xp (Z.of_nat i) else mbit wp (Z.of_nat i) && mbit xp (Z.of_nat i)); [reflexivity|].
      rewrite !mbit_split. unfold word at 5. rewrite R by lia. rewrite !Z.add_0_l. rewrite Z2Nat.id by lia. unfold f. destruct (bit_kind o =? 1); [rewrite Z.lor_spec|rewrite Z.land_spec]; reflexivity.
    + replace (nth_error (seq 0 (Z.to_nat n)) i) with (@None nat) by (symmetry; apply nth_error_None; rewrite seq_length; auto). cbn [option_map].
      match goal with |- _ = option_map _ ?c => replace c with (@None (Z * Z)); [reflexivity|] end. symmetry. apply nth_error_None. rewrite combine_length, !map_length, seq_length. lia.
Qed.
Lemma AA_result sq o w x : keeps_arr sq -> arr_ok w -> arr_ok x -> a_ia w = a_ia x -> result o (vals w) (vals x) (arith_AA sq o w x).
Proof.
  intros KS W X L. unfold arith_AA. assert (LL : length (vals w) = length (vals x)). { pose proof (vals_len w W). pose proof (vals_len x X). lia. }
  pose proof (vals_double w W) as Dw. pose proof (vals_double x X) as Dx. rewrite !elems_ok by auto. cbn [bind].
  assert (GEN : forall wk xk, (wk = 64 \/ (ik wk /\ inr wk (vals w))) -> (xk = 64 \/ (ik xk /\ inr xk (vals x))) -> result o (vals w) (vals x)
    (if ((wk =? 32) || (wk =? 64)) && ((xk =? 32) || (xk =? 64)) then
      if (wk =? 32) && (xk =? 32) then
        do r <- do_int true 32 o (vals w) (vals x);
        match r with Some r => Ok (AI 32 r) | None => do r <- do_dbl o (vals w) (vals x); Ok (sq (AF r)) end
      else if (wk =? 64) && (xk =? 64) then do r <- do_dbl o (vals w) (vals x); Ok (AF r)
      else do r <- do_dbl o (vals w) (vals x); Ok (sq (AF r))
    else if (wk =? 64) || (xk =? 64) then recd sq o (vals w) (vals x)
    else
      let k := Z.max wk xk in
      do r <- do_int true k o (vals w) (vals x);
      match r with Some r => Ok (AI k r) | None => recd sq o (vals w) (vals x) end)).
  { intros wk xk HW HX. destruct (((wk =? 32) || (wk =? 64)) && ((xk =? 32) || (xk =? 64))) eqn:C1.
    - destruct ((wk =? 32) && (xk =? 32)) eqn:C2.
      + apply andb_true_iff in C2. destruct C2 as [C2 C3]. apply Z.eqb_eq in C2, C3. subst wk xk. destruct HW as [|[Kw Rw]]; [discriminate|]. destruct HX as [|[Kx Rx]]; [discriminate|]. apply i_result; auto.
      + destruct ((wk =? 64) && (xk =? 64)); [apply f_result; auto|apply sq_result; auto].
    - destruct ((wk =? 64) || (xk =? 64)) eqn:C2; [apply sq_result; auto|]. destruct HW as [->|[Kw Rw]]; [cbn in C2; discriminate|]. destruct HX as [->|[Kx Rx]]; [rewrite orb_comm in C2; cbn in C2; discriminate|].
      cbv zeta. apply i_result; auto; [unfold ik in *; lia|apply (inr_wider wk); auto; lia|apply (inr_wider xk); auto; lia]. }
  assert (I8 : ik 8) by (left; auto).
  destruct w as [wp n|k l|l], x as [xp m|k' l'|l']; cbn [wid].
  - cbn [a_ia] in *. subst m. destruct (bit_kind o =? 0) eqn:B.
    + apply GEN; right; split; auto; apply bits_in; auto.
    + apply bit_result; auto. apply Z.eqb_neq. exact B.
  - destruct X as [K R]. apply GEN; right; split; auto. apply bits_in; auto.
  - apply GEN; left; auto.
  - destruct W as [K R]. apply GEN; right; split; auto. apply bits_in; auto.
  - destruct W as [K R], X as [K' R']. apply GEN; right; split; auto.
  - destruct W as [K R]. apply GEN; [right; split; auto|left; auto].
  - apply GEN; left; auto.
  - destruct X as [K R]. apply GEN; [left; auto|right; split; auto].
  - apply GEN; left; auto.
Qed.
Lemma map2_repeat_l o w l : map2 (dbl_op o) (repeat w (length l)) l = map (dbl_op o w) l.
Proof. induction l as [|a l IH]; [reflexivity|]. cbn [length repeat map]. rewrite map2_cons, IH. reflexivity. Qed.
Lemma map2_repeat_r o x l : map2 (dbl_op o) l (repeat x (length l)) = map (fun a => dbl_op o a x) l.
Proof. induction l as [|a l IH]; [reflexivity|]. cbn [length repeat map]. rewrite map2_cons, IH. reflexivity. Qed.
Lemma repeat_all {A} (P : A -> Prop) a n : P a -> Forall P (repeat a n).
Proof. intros H. induction n; constructor; auto. Qed.
Lemma fits_spec k v : fits k v = true -> - 2 ^ (k - 1) <= v < 2 ^ (k - 1).
Proof. unfold fits. lia. Qed.
Lemma SA_result sq o w x : keeps_arr sq -> is_double w -> arr_ok x -> result o (repeat w (length (vals x))) (vals x) (arith_SA sq o w x).
Proof.
  intros KS W X. pose proof (vals_double x X) as Dx. destruct x as [xp n|k l|l]; unfold arith_SA.
  - unfold bit_sel1. destruct X as [X N]. rewrite get_bits_ok by exact N. cbn [bind].
    assert (D : Forall is_double (map (fun b : bool => if b then dbl_op o w 1 else dbl_op o w 0) (bits_of xp 0 n))).
    { apply Forall_forall. intros z H. apply in_map_iff in H. destruct H as (b & <- & _). destruct b; apply dbl_op_double; auto; apply small_double; lia. }
    destruct (KS (AF _) D) as [K1 K2]. eexists. split; [reflexivity|]. split; [exact K1|]. rewrite K2, map2_repeat_l. cbn [vals]. rewrite map_map. apply map_ext. intros [|]; reflexivity.
  - destruct X as [K R]. cbn [vals] in *. destruct (fits k w) eqn:F.
    + apply i_result; auto; [apply repeat_length|]. apply repeat_all. apply fits_spec; auto.
    + apply sq_result; auto; [apply repeat_length|]. apply repeat_all; auto.
  - cbn [vals] in *. apply f_result; auto; [apply repeat_length|]. apply repeat_all; auto.
Qed.
Lemma dbl_comm o a b : o <> OSub -> dbl_op o a b = dbl_op o b a.
Proof. destruct o; intros H; cbn [dbl_op]; try (f_equal; lia); try congruence; try (rewrite (Z.add_comm a), (Z.mul_comm a); reflexivity); destruct (b <? a) eqn:?, (a <? b) eqn:?; lia. Qed.
Lemma AS_result sq o w x : keeps_arr sq -> arr_ok w -> is_double x -> result o (vals w) (repeat x (length (vals w))) (arith_AS sq o w x).
Proof.
  intros KS W X. pose proof (vals_double w W) as Dw. assert (G : o <> OSub -> result o (vals w) (repeat x (length (vals w))) (arith_SA sq o x w)).
  { intros N. destruct (SA_result sq o x w KS X W) as (r & E & O & V). exists r. split; [exact E|]. split; [exact O|]. rewrite V, map2_repeat_l, map2_repeat_r. apply map_ext. intros a. apply dbl_comm; auto. }
  destruct o; try (apply G; discriminate). clear G.
  destruct w as [wp n|k l|l]; unfold arith_AS.
  - unfold bit_sel1. destruct W as [W N]. rewrite get_bits_ok by exact N. cbn [bind].
    assert (D : Forall is_double (map (fun b : bool => if b then dbl_op OSub 1 x else dbl_op OSub 0 x) (bits_of wp 0 n))).
    { apply Forall_forall. intros z H. apply in_map_iff in H. destruct H as (b & <- & _). destruct b; apply dbl_op_double; auto; apply small_double; lia. }
    destruct (KS (AF _) D) as [K1 K2]. eexists. split; [reflexivity|]. split; [exact K1|]. rewrite K2, map2_repeat_r. cbn [vals]. rewrite map_map. apply map_ext. intros [|]; reflexivity.
  - destruct W as [K R]. cbn [vals] in *. destruct (fits k x) eqn:F.
    + apply i_result; auto; [rewrite repeat_length; auto|]. apply repeat_all. apply fits_spec; auto.
    + apply sq_result; auto; [rewrite repeat_length; auto|]. apply repeat_all; auto.
  - cbn [vals] in *. apply f_result; auto; [rewrite repeat_length; auto|]. apply repeat_all; auto.
Qed.
