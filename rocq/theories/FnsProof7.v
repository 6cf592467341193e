From Verif Require Import Base BitsModel SqueezeModel SqueezeProof ReuseModel TransSpec FnsModel FnsSpec FnsProof FnsProof2 FnsProof3.
From Coq Require Import List.
Open Scope nat_scope.
Lemma veq_eq a b : veq a b = true <-> a = b.
Proof. destruct a, b; cbn [veq]; split; intros H; try discriminate; try (apply Z.eqb_eq in H; subst; reflexivity); injection H as ->; apply Z.eqb_refl. Qed.
Definition d0 : val := VNum 0%Z.
(** w is at position j of x *)
Definition mp (x w : list val) (i j : nat) : bool := forallb (fun t => veq (nth (j + t) x d0) (nth t w d0)) (seq 0 i).
Definition mt (x w : list val) (j : nat) : bool := mp x w (length w) j.
Lemma mp_S x w i j : mp x w (i + 1) j = mp x w i j && veq (nth (j + i) x d0) (nth i w d0).
Proof. unfold mp. rewrite seq_snoc, forallb_app. cbn [forallb Nat.add]. rewrite andb_true_r. reflexivity. Qed.
Lemma mp_le x w i k j : i <= k -> mp x w i j = false -> mp x w k j = false.
Proof. intros H F. replace k with (i + (k - i)) by lia. unfold mp in *. rewrite seq_app, forallb_app, F. reflexivity. Qed.
Lemma mt_iff x w j : j + length w <= length x -> (mt x w j = true <-> forall t, t < length w -> nth_error x (j + t) = nth_error w t).
Proof.
  intros B. unfold mt, mp. rewrite forallb_forall. split.
  - intros H t T. specialize (H t ltac:(apply in_seq; lia)). apply veq_eq in H. rewrite (nth_error_nth' x d0) by lia. rewrite (nth_error_nth' w d0) by lia. rewrite H. reflexivity.
  - intros H t T. apply in_seq in T. apply veq_eq. specialize (H t ltac:(lia)). rewrite (nth_error_nth' x d0), (nth_error_nth' w d0) in H by lia. congruence.
Qed.
Lemma cmp_ok x v : forall n off, off + n <= length x -> cmp_as x off v n = Ok (map (fun j => veq (nth (off + j) x d0) v) (seq 0 n)).
Proof.
  induction n as [|n IH]; intros off B; [reflexivity|]. cbn [cmp_as]. rewrite (rd_ok x off d0) by lia. cbn [bind]. rewrite IH by lia. cbn [bind seq map]. rewrite Nat.add_0_r. do 2 f_equal.
  rewrite (seq_shift_add 1), map_map. apply map_ext. intros j. do 2 f_equal. lia.
Qed.
Lemma and_map {A} (f g : A -> bool) l : and_all (map f l) (map g l) = map (fun a => f a && g a) l.
Proof. induction l as [|a l IH]; [reflexivity|]. cbn [map and_all]. rewrite IH. reflexivity. Qed.
Lemma bsum_nn l : (0 <= bsum l)%Z. Proof. induction l as [|a l IH]; [cbn; lia|]. change (bsum (a :: l)) with (Z.b2z a + bsum l)%Z. destruct a; cbn [Z.b2z]; lia. Qed.
Lemma bsum_0 l : bsum l = 0%Z -> forall b, In b l -> b = false.
Proof. induction l as [|a l IH]; intros H b IB; [contradiction|]. change (bsum (a :: l)) with (Z.b2z a + bsum l)%Z in H. pose proof (bsum_nn l). destruct a; cbn [Z.b2z] in H; [lia|]. destruct IB as [<- |IB]; [reflexivity|apply IH; auto; lia]. Qed.
Lemma match_ok w x : forall n i j, i + n <= length w -> j + n <= length x -> match_at w x i j n = Ok (forallb (fun t => veq (nth (j + t) x d0) (nth (i + t) w d0)) (seq 0 n)).
Proof.
  induction n as [|n IH]; intros i j Bw Bx; [reflexivity|]. cbn [match_at]. rewrite (rd_ok w i d0), (rd_ok x j d0) by lia. cbn [bind seq forallb]. rewrite !Nat.add_0_r.
  assert (S : veq (nth i w d0) (nth j x d0) = veq (nth j x d0) (nth i w d0)).
  { destruct (veq (nth i w d0) (nth j x d0)) eqn:E; symmetry; [apply veq_eq in E; apply veq_eq; congruence|]. destruct (veq (nth j x d0) (nth i w d0)) eqn:E2; [|reflexivity]. apply veq_eq in E2. assert (veq (nth i w d0) (nth j x d0) = true) by (apply veq_eq; congruence). congruence. }
  rewrite S. destruct (veq (nth j x d0) (nth i w d0)); [|reflexivity]. rewrite IH by lia. cbn [andb]. f_equal. rewrite (seq_shift_add 1). 
  generalize (seq 0 n). induction l as [|a l IHl]; [reflexivity|]. cbn [map forallb]. rewrite IHl. do 3 f_equal; lia.
Qed.
Lemma ind_in : forall l i j, In j (indices i l) <-> i <= j /\ j < i + length l /\ nth (j - i) l false = true.
Proof.
  induction l as [|b l IH]; intros i j; cbn [indices length]; [cbn [In]; lia|]. rewrite in_app_iff, IH. split.
  - intros [H|(H1 & H2 & H3)].
    + destruct b; [|contradiction]. destruct H as [<- |[]]. rewrite Nat.sub_diag. cbn [nth]. split; [lia|split; [lia|reflexivity]].
    + split; [lia|]. split; [lia|]. replace (j - i) with (S (j - (i + 1))) by lia. exact H3.
  - intros (H1 & H2 & H3). destruct (Nat.eq_dec i j) as [->|NE].
    + left. rewrite Nat.sub_diag in H3. cbn [nth] in H3. subst b. left; reflexivity.
    + right. split; [lia|]. split; [lia|]. replace (j - i) with (S (j - (i + 1))) in H3 by lia. exact H3.
Qed.
Definition tailm (w x : list val) (i j : nat) : bool := forallb (fun t => veq (nth (i + j + t) x d0) (nth (i + t) w d0)) (seq 0 (length w - i)).
Lemma verify_ok w x i rl : i <= length w -> rl + length w <= length x + 1 -> forall ind r, length r = rl -> (forall j, In j ind -> j < rl) ->
  exists r', verify w x i (length w - i) ind r = Ok r' /\ length r' = rl /\ forall j, nth j r' false = nth j r false && (if in_dec Nat.eq_dec j ind then tailm w x i j else true).
Proof.
  intros IW B. induction ind as [|k ind IH]; intros r L H; cbn [verify].
  - exists r. split; [reflexivity|]. split; [exact L|]. intros j. destruct (in_dec Nat.eq_dec j []) as [[]|_]. rewrite andb_true_r. reflexivity.
  - specialize (H k (or_introl eq_refl)) as K. rewrite match_ok by lia. cbn [bind]. fold (tailm w x i k).
    assert (E : exists r1, (if tailm w x i k then Ok r else wr r k false) = Ok r1 /\ length r1 = rl /\ forall j, nth j r1 false = nth j r false && (if Nat.eq_dec j k then tailm w x i k else true)).
    { destruct (tailm w x i k) eqn:T.
      - exists r. split; [reflexivity|]. split; [exact L|]. intros j. destruct (Nat.eq_dec j k); rewrite andb_true_r; reflexivity.
      - unfold wr. replace (k <? length r) with true by lia. exists (upd r k false). split; [reflexivity|]. split; [rewrite upd_length; exact L|]. intros j.
        assert (N : nth j (upd r k false) false = match nth_error (upd r k false) j with Some b => b | None => false end) by (clear; revert j; generalize (upd r k false); induction l as [|a l IHl]; intros [|j]; cbn; auto).
        assert (N2 : nth j r false = match nth_error r j with Some b => b | None => false end) by (clear; revert j; induction r as [|a l IHl]; intros [|j]; cbn; auto).
        rewrite N, N2, nth_error_upd. destruct (Nat.eq_dec j k) as [->|NE]; [rewrite Nat.eqb_refl; replace (k <? length r) with true by lia; rewrite andb_false_r; reflexivity|]. destruct (Nat.eqb_spec k j); [lia|]. rewrite andb_true_r. reflexivity. }
    destruct E as (r1 & E & L1 & N1). rewrite E. cbn [bind]. destruct (IH r1 L1) as (r2 & E2 & L2 & N2); [intros; apply H; right; assumption|]. exists r2. split; [exact E2|]. split; [exact L2|]. intros j. rewrite N2, N1.
    destruct (in_dec Nat.eq_dec j ind) as [I1|I1], (in_dec Nat.eq_dec j (k :: ind)) as [I2|I2], (Nat.eq_dec j k) as [->|NE]; cbn [In] in I2; try tauto; rewrite ?andb_true_r; auto.
    + destruct (nth k r false), (tailm w x i k); reflexivity.
    + exfalso. destruct I2 as [I2|I2]; [congruence|tauto].
Qed.
Lemma tail_all w x i j : i <= length w -> mp x w i j && tailm w x i j = mt x w j.
Proof.
  intros H. unfold mt, mp, tailm. replace (length w) with (i + (length w - i)) at 2 by lia. rewrite seq_app, forallb_app. f_equal. rewrite (seq_shift_add (0 + i)). cbn [Nat.add].
  generalize (seq 0 (length w - i)). induction l as [|a l IHl]; [reflexivity|]. cbn [map forallb]. rewrite IHl. do 3 f_equal; lia.
Qed.
Lemma loop_ok w x wbit rl : 0 < length w -> rl + length w = length x + 1 -> forall fuel i, i + fuel = length w -> 1 <= i ->
  find_loop fuel wbit w x rl i (map (mp x w i) (seq 0 rl)) = Ok (map (mt x w) (seq 0 rl)).
Proof.
  intros W0 B. induction fuel as [|fuel IH]; intros i F I1; cbn [find_loop].
  - unfold mt. replace (length w) with i by lia. reflexivity.
  - rewrite (rd_ok w i d0) by lia. cbn [bind]. rewrite cmp_ok by lia. cbn [bind]. rewrite and_map. cbv zeta.
    assert (E : map (fun a => mp x w i a && veq (nth (i + a) x d0) (nth i w d0)) (seq 0 rl) = map (mp x w (i + 1)) (seq 0 rl)) by (apply map_ext; intros j; rewrite mp_S; do 3 f_equal; lia).
    rewrite E. destruct (Z.eqb_spec (bsum (map (mp x w (i + 1)) (seq 0 rl))) 0) as [S0|S0].
    + f_equal. apply map_ext_in. intros j J. pose proof (bsum_0 _ S0 (mp x w (i + 1) j) (in_map _ _ _ J)) as Q. rewrite Q. symmetry. apply (mp_le x w (i + 1)); [lia|exact Q].
    + destruct ((_ <? _)%Z && _ && _).
      * destruct (verify_ok w x i rl ltac:(lia) ltac:(lia) (indices 0 (map (mp x w (i + 1)) (seq 0 rl))) (map (mp x w (i + 1)) (seq 0 rl))) as (r' & E' & L' & N'); [rewrite map_length, seq_length; reflexivity| |].
        { intros j J. apply ind_in in J. rewrite map_length, seq_length in J. lia. }
        rewrite E'. f_equal. apply (nth_ext _ _ false false); [rewrite L', map_length, seq_length; reflexivity|]. rewrite L'. intros j J. rewrite N'.
        assert (NM : forall f : nat -> bool, nth j (map f (seq 0 rl)) false = f j). { intros f. rewrite (nth_indep _ false (f 0)) by (rewrite map_length, seq_length; lia). rewrite map_nth, seq_nth by lia. reflexivity. }
        rewrite !NM. destruct (in_dec Nat.eq_dec j (indices 0 (map (mp x w (i + 1)) (seq 0 rl)))) as [H|H].
        -- rewrite <- (tail_all w x i j) by lia. rewrite mp_S. pose proof (tail_all w x i j ltac:(lia)) as T1. pose proof (tail_all w x (i + 1) j ltac:(lia)) as T2. rewrite mp_S in T2.
           destruct (tailm w x i j) eqn:TT; [|rewrite !andb_false_r; reflexivity]. rewrite !andb_true_r. rewrite andb_true_r in T1.
           destruct (mp x w i j); [|reflexivity]. cbn [andb] in *. rewrite <- T1 in T2. destruct (veq (nth (j + i) x d0) (nth i w d0)); [reflexivity|discriminate].
        -- rewrite andb_true_r. assert (Q : mp x w (i + 1) j = false). { destruct (mp x w (i + 1) j) eqn:Q; [|reflexivity]. exfalso. apply H. apply ind_in. rewrite map_length, seq_length, Nat.sub_0_r. split; [lia|]. split; [lia|]. rewrite NM. exact Q. }
           rewrite Q. symmetry. apply (mp_le x w (i + 1)); [lia|exact Q].
      * apply IH; lia.
Qed.
Lemma find_list_ok wbit w x : (Z.of_nat (places (length x) (length w)) < 2 ^ 32)%Z -> find_list wbit w x = Ok (map (mt x w) (seq 0 (places (length x) (length w)))).
Proof.
  intros B. unfold find_list, places in *. destruct (Nat.ltb_spec (length x) (length w)) as [LT|GE]; [replace (length x + 1 - length w) with 0 by lia; reflexivity|].
  destruct (Nat.eqb_spec (length w) 0) as [W0|W0].
  - rewrite W0 in *. rewrite to_u_id by lia. replace (Z.to_nat (Z.of_nat (length x) + 1)) with (length x + 1 - 0) by lia. f_equal. assert (G : forall n s, repeat true n = map (mt x w) (seq s n)); [|apply G]. induction n as [|n IH]; intros s; [reflexivity|]. cbn [repeat seq map]. rewrite <- IH. f_equal. unfold mt. rewrite W0. reflexivity.
  - rewrite (rd_ok w 0 d0) by lia. cbn [bind]. rewrite cmp_ok by lia. cbn [bind].
    replace (map (fun j => veq (nth (0 + j) x d0) (nth 0 w d0)) (seq 0 (length x - length w + 1))) with (map (mp x w 1) (seq 0 (length x - length w + 1))) by (apply map_ext; intros j; unfold mp; cbn [seq forallb Nat.add]; rewrite Nat.add_0_r, andb_true_r; reflexivity).
    rewrite (loop_ok w x wbit) by lia. do 3 f_equal. lia.
Qed.
