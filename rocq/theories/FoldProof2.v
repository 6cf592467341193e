From Verif Require Import Base ListLib BitsModel BitsSpec BitsProof BitsProof2 SqueezeModel SqueezeProof SelectModel SelectProof SelectProof2 ArithModel ArithSpec ArithProof ArithProof2 ArithProof3 FoldModel FoldSpec FoldProof.
From Coq Require Import List Lia.
Open Scope Z_scope.

Lemma skipn_add {A} (l : list A) : forall i n, skipn n (skipn i l) = skipn (i + n) l.
Proof. induction l as [|a l IH]; intros [|i] n; rewrite ?skipn_nil; auto. cbn [skipn Nat.add]. apply IH. Qed.
(** * sums *)
Fixpoint zsum (l : list Z) : Z := match l with [] => 0 | a :: l => a + zsum l end.
Lemma zsum_app l m : zsum (l ++ m) = zsum l + zsum m.
Proof. induction l as [|a l IH]; cbn [app zsum]; lia. Qed.
Definition within (b : Z) (l : list Z) : Prop := Forall (fun z => - b <= z < b) l.
Lemma zsum_within b l : within b l -> - (b * Z.of_nat (length l)) <= zsum l <= (b - 1) * Z.of_nat (length l).
Proof. induction 1 as [|a l A L IH]; cbn [zsum length]; [lia|]. rewrite Nat2Z.inj_succ. nia. Qed.
(** sums of doubles without rounding *)
Lemma fold_add_exact b : forall l c, within b l -> Z.abs c + b * Z.of_nat (length l) <= 2 ^ 53 -> fold_right (prim_op (PO OAdd)) c l = c + zsum l.
Proof.
  induction l as [|a l IH]; intros c W B; [cbn; lia|]. inversion W as [|? ? A W']; subst. cbn [length] in B. rewrite Nat2Z.inj_succ in B. assert (0 < b) by lia. cbn [fold_right zsum]. rewrite IH by (auto; nia). cbn [prim_op dbl_op]. pose proof (zsum_within b l W'). rewrite rnd_exact by nia. lia.
Qed.
Lemma fold_sub_exact b : forall l c, within b l -> Z.abs c + b * Z.of_nat (length l) <= 2 ^ 53 -> fold_right (prim_op (PO OSub)) c l = alt l c /\ Z.abs (alt l c) <= Z.abs c + b * Z.of_nat (length l).
Proof.
  induction l as [|a l IH]; intros c W B; [cbn [fold_right alt length]; lia|]. inversion W as [|? ? A W']; subst. cbn [length] in *. rewrite Nat2Z.inj_succ in *. assert (0 < b) by lia. cbn [fold_right alt]. destruct (IH c W') as [-> I]; [nia|]. cbn [prim_op dbl_op]. rewrite rnd_exact by nia. split; [reflexivity|nia].
Qed.
Lemma sum_small_ok K b : 0 < b -> forall l s m, within b l -> - (b * m) <= s <= (b - 1) * m -> 0 <= m -> b * (m + Z.of_nat (length l)) <= 2 ^ (K - 1) -> 0 < 2 ^ (K - 1) -> sum_small K l s = Ok (s + zsum l).
Proof.
  intros Hb. induction l as [|a l IH]; intros s m W S M B P; cbn [sum_small zsum]; [f_equal; lia|]. inversion W as [|? ? A W']; subst. cbn [length] in B. rewrite Nat2Z.inj_succ in B. unfold ck.
  assert (0 <= b * Z.of_nat (length l)) by nia. replace ((- 2 ^ (K - 1) <=? s + a) && (s + a <? 2 ^ (K - 1))) with true.
  - cbn [bind]. rewrite (IH (s + a) (m + 1)); auto; try lia; try nia. f_equal. lia.
  - symmetry. apply andb_true_iff. split; [apply Z.leb_le|apply Z.ltb_lt]; nia.
Qed.
Definition hb (k : Z) : Z := 2 ^ (k - 1).
Lemma inr_within k l : inr k l <-> within (hb k) l. Proof. reflexivity. Qed.
Lemma hb_vals k : ik k -> (k = 8 /\ hb k = 128 /\ sumM k = 32 /\ sumK k = 32) \/ (k = 16 /\ hb k = 32768 /\ sumM k = 32 /\ sumK k = 32) \/ (k = 32 /\ hb k = 2147483648 /\ sumM k = 52 /\ sumK k = 64).
Proof. intros [-> | [-> | ->]]; [left|right; left|right; right]; repeat split; reflexivity. Qed.
Lemma within_part b l i n : within b l -> within b (firstn n (skipn i l)).
Proof. intros W. apply Forall_forall. intros z H. apply (proj1 (Forall_forall _ _) W). rewrite <- (firstn_skipn i l). apply in_or_app. right. rewrite <- (firstn_skipn n (skipn i l)). apply in_or_app. left. auto. Qed.
Lemma block_sum k l : ik k -> inr k l -> Z.of_nat (length l) <= 2 ^ (sumM k - k) -> sum_small (sumK k) l 0 = Ok (zsum l).
Proof.
  intros K R L. rewrite inr_within in R.
  assert (H : 0 < hb k /\ hb k * Z.of_nat (length l) <= 2 ^ (sumK k - 1) /\ 0 < 2 ^ (sumK k - 1)).
  { clear R. destruct (hb_vals k K) as [(E & H & M & S) | [(E & H & M & S) | (E & H & M & S)]]; rewrite M in L; rewrite H, S; rewrite E in L.
    - change (2 ^ (32 - 8)) with 16777216 in L. change (2 ^ (32 - 1)) with 2147483648. lia.
    - change (2 ^ (32 - 16)) with 65536 in L. change (2 ^ (32 - 1)) with 2147483648. lia.
    - change (2 ^ (52 - 32)) with 1048576 in L. change (2 ^ (64 - 1)) with 9223372036854775808. lia. }
  destruct H as (H1 & H2 & H3). rewrite (sum_small_ok (sumK k) (hb k) H1 l 0 0); auto; lia.
Qed.
Lemma small_sum k l : ik k -> inr k l -> Z.of_nat (length l) <= 65536 -> sum_small (sumK k) l 0 = Ok (zsum l).
Proof.
  intros K R L. apply block_sum; auto. destruct (hb_vals k K) as [(E & H & M & S) | [(E & H & M & S) | (E & H & M & S)]]; rewrite M, E; clear - L.
  - change (2 ^ (32 - 8)) with 16777216. lia.
  - change (2 ^ (32 - 16)) with 65536. lia.
  - change (2 ^ (52 - 32)) with 1048576. lia.
Qed.
Lemma sum_blocks_ok k xp init : ik k -> inr k xp -> forall fuel c i0, (Z.to_nat i0 <= fuel)%nat -> 0 <= i0 <= Z.of_nat (length xp) ->
  c = fold_right (prim_op (PO OAdd)) init (skipn (Z.to_nat i0) xp) -> rnd c = c -> - 2 ^ 63 <= c < 2 ^ 63 ->
  exists c' i', sum_blocks fuel k xp c i0 = Ok (c', i') /\ 0 <= i' <= Z.of_nat (length xp) /\ c' = fold_right (prim_op (PO OAdd)) init (skipn (Z.to_nat i') xp) /\ rnd c' = c'.
Proof.
  intros K R. induction fuel as [|fuel IH]; intros c i0 F I C RC CB; cbn [sum_blocks].
  - replace (0 <? i0) with false by lia. cbn [andb]. exists c, i0. auto.
  - set (b := 2 ^ (sumM k - k)). destruct ((0 <? i0) && (- (2 ^ 53 - 2 ^ sumM k) <=? c) && (c <=? 2 ^ 53 - 2 ^ sumM k)) eqn:G; [|exists c, i0; auto].
    apply andb_true_iff in G. destruct G as [G G3]. apply andb_true_iff in G. destruct G as [G1 G2]. apply Z.ltb_lt in G1. apply Z.leb_le in G2, G3.
    assert (B : 0 < b /\ b * hb k <= 2 ^ sumM k /\ 2 ^ sumM k <= 2 ^ 52 /\ 0 < hb k).
    { unfold b. clear - K. destruct (hb_vals k K) as [(E & H & M & S) | [(E & H & M & S) | (E & H & M & S)]]; rewrite H, M, E; vm_compute; repeat split; congruence. }
    destruct B as (B0 & B1 & B2 & B3). set (j := (i0 - 1) / b * b).
    assert (J : 0 <= j < i0 /\ i0 - j <= b). { unfold j. pose proof (Z.div_mod (i0 - 1) b ltac:(lia)). pose proof (Z.mod_pos_bound (i0 - 1) b ltac:(lia)). pose proof (Z.div_pos (i0 - 1) b ltac:(lia) ltac:(lia)). nia. }
    set (blk := firstn (Z.to_nat (i0 - j)) (skipn (Z.to_nat j) xp)).
    assert (LB : length blk = Z.to_nat (i0 - j)) by (unfold blk; rewrite firstn_length, skipn_length; lia).
    assert (WB : inr k blk) by (apply within_part, R).
    rewrite block_sum by (auto; fold b; lia). cbn [bind].
    assert (SP : skipn (Z.to_nat j) xp = blk ++ skipn (Z.to_nat i0) xp).
    { unfold blk. rewrite <- (firstn_skipn (Z.to_nat (i0 - j)) (skipn (Z.to_nat j) xp)) at 1. f_equal. rewrite skipn_add. f_equal. lia. }
    pose proof (zsum_within _ _ (proj1 (inr_within k blk) WB)) as ZS. assert (LZ : Z.of_nat (length blk) = i0 - j) by lia. rewrite LZ in ZS. assert (HB : hb k * (i0 - j) <= hb k * b) by (apply Z.mul_le_mono_nonneg_l; lia). assert (SB : Z.abs (zsum blk) <= 2 ^ sumM k). { rewrite Z.mul_sub_distr_r in ZS. lia. }
    assert (T53 : 2 ^ 53 = 2 * 2 ^ 52) by reflexivity. assert (P52 : 0 < 2 ^ 52) by reflexivity.
    unfold ck. replace ((- 2 ^ (64 - 1) <=? c + zsum blk) && (c + zsum blk <? 2 ^ (64 - 1))) with true.
    2:{ symmetry. change (2 ^ (64 - 1)) with (2048 * 2 ^ 52). apply andb_true_iff. split; [apply Z.leb_le|apply Z.ltb_lt]; lia. }
    cbn [bind]. apply IH; [lia|lia| | |].
    + rewrite SP, fold_right_app, <- C. symmetry. apply (fold_add_exact (hb k)); [exact WB|]. rewrite LZ. lia.
    + apply rnd_exact. lia.
    + change (2 ^ 63) with (2048 * 2 ^ 52). lia.
Qed.
Lemma sum_comm xp n c : down n (fun e r => dbl_op OAdd r e) xp c = down n (prim_op (PO OAdd)) xp c.
Proof. revert c. induction n as [|n IH]; intros c; [reflexivity|]. cbn [down]. destruct (rd xp n); cbn [bind]; auto. rewrite IH. cbn [prim_op dbl_op]. do 2 f_equal. lia. Qed.
Lemma prod_comm xp n c : down n (fun e r => dbl_op OMul r e) xp c = down n (prim_op (PO OMul)) xp c.
Proof. revert c. induction n as [|n IH]; intros c; [reflexivity|]. cbn [down]. destruct (rd xp n); cbn [bind]; auto. rewrite IH. cbn [prim_op dbl_op]. do 2 f_equal. lia. Qed.
Definition conv (K : Z) (cv : Z -> Z) : Prop := forall z, - 2 ^ (K - 1) <= cv z < 2 ^ (K - 1) /\ (- 2 ^ (K - 1) <= z < 2 ^ (K - 1) -> cv z = z).
Lemma rnd_idem z : rnd (rnd z) = rnd z. Proof. apply rnd_double_id, rnd_double. Qed.
Lemma sum_int_ok cv k xp init : conv 64 cv -> ik k -> inr k xp -> is_double init -> sum_int cv k xp init = Ok (fold_right (prim_op (PO OAdd)) init xp).
Proof.
  intros CV K R D. unfold sum_int. destruct (CV init) as [CR CE]. change (2 ^ (64 - 1)) with 9223372036854775808 in *. remember (cv init) as c eqn:Ec. destruct (rnd c =? init) eqn:E.
  - apply Z.eqb_eq in E. destruct (Z_le_gt_dec (Z.abs init) 9007199254740992) as [S|S].
    + rewrite CE in * by lia. clear Ec.
      destruct (sum_blocks_ok k xp init K R (length xp) init (Z.of_nat (length xp))) as (c' & i' & -> & I & C & RC); auto; try lia.
      { rewrite Nat2Z.id, skipn_all. reflexivity. }
      cbn [bind]. rewrite sum_comm, down_ok by lia. rewrite RC, C, <- fold_right_app, firstn_skipn. reflexivity.
    + assert (BIG : 2 ^ 53 - 2 ^ sumM k < Z.abs c).
      { assert (2 ^ 53 - 2 ^ sumM k <= 9007199254740992 - 4294967296) by (clear - K; destruct (hb_vals k K) as [(_ & _ & -> & _) | [(_ & _ & -> & _) | (_ & _ & -> & _)]]; vm_compute; congruence).
        destruct (Z_le_gt_dec (Z.abs c) 9007199254740992) as [L|]; [|lia]. rewrite rnd_exact in E by (change (2 ^ 53) with 9007199254740992; lia). lia. }
      assert (sum_blocks (length xp) k xp c (Z.of_nat (length xp)) = Ok (c, Z.of_nat (length xp))) as ->.
      { destruct (length xp); cbn [sum_blocks]; destruct ((0 <? _) && _ && _) eqn:G; auto; exfalso; lia. }
      cbn [bind]. rewrite E, sum_comm, Nat2Z.id, down_ok, firstn_all by lia. reflexivity.
  - cbn [bind]. rewrite sum_comm, Nat2Z.id, down_ok, firstn_all by lia. reflexivity.
Qed.
(** products *)
Lemma fits_ok k v : fits k v = true -> - 2 ^ (k - 1) <= v < 2 ^ (k - 1). Proof. unfold fits. lia. Qed.
Lemma prod_int_ok xp : forall n init, (n <= length xp)%nat -> prod_int n xp init = Ok (fold_right (prim_op (PO OMul)) init (firstn n xp)).
Proof.
  intros n. induction n as [|n IH]; intros init L; [reflexivity|]. cbn [prod_int]. rewrite <- (down_ok _ xp (S n) init L). cbn [down]. unfold rd. destruct (nth_error xp n) as [e|] eqn:E; [|apply nth_error_None in E; lia]. cbn [bind].
  destruct (fits 32 (init * e)) eqn:F.
  - apply fits_ok in F. change (2 ^ (32 - 1)) with 2147483648 in F. rewrite IH by lia. rewrite down_ok by lia. cbn [prim_op dbl_op]. rewrite rnd_exact by (change (2 ^ 53) with 9007199254740992; lia). do 2 f_equal. apply Z.mul_comm.
  - unfold prod_dbl. rewrite prod_comm. cbn [down]. unfold rd. rewrite E. reflexivity.
Qed.
(** minimum and maximum *)
Definition mm (mx : bool) : Z -> Z -> Z := if mx then Z.max else Z.min.
Lemma mm_push mx : forall l r a, mm mx a (fold_right (mm mx) r l) = fold_right (mm mx) (mm mx a r) l.
Proof. induction l as [|b l IH]; intros r a; [reflexivity|]. cbn [fold_right]. rewrite <- IH. destruct mx; cbn [mm]; lia. Qed.
Lemma mm_comm mx a b : mm mx a b = mm mx b a. Proof. destruct mx; cbn [mm]; lia. Qed.
Lemma min_loop_ok mx : forall l r, min_loop mx l r = fold_right (mm mx) r l.
Proof.
  induction l as [|a l IH]; intros r; [reflexivity|]. cbn [min_loop fold_right]. rewrite IH, mm_push. f_equal. destruct mx; cbn [mm]; [destruct (r <? a) eqn:Hc; lia|destruct (a <? r) eqn:Hc; lia].
Qed.
Lemma mm_op (mx : bool) a b : prim_op (PO (if mx then OMax else OMin)) a b = mm mx a b.
Proof. destruct mx; cbn [prim_op dbl_op mm]; destruct (b <? a) eqn:Hc; lia. Qed.
Lemma fold1_mm mx a l : fold1 (mm mx) (a :: l) = Some (fold_right (mm mx) a l).
Proof.
  revert a. induction l as [|b l IH]; intros a; [reflexivity|]. change (fold1 (mm mx) (a :: b :: l)) with (match fold1 (mm mx) (b :: l) with None => Some a | Some r => Some (mm mx a r) end). rewrite IH. cbn [fold_right]. rewrite !mm_push, mm_comm. reflexivity.
Qed.
Lemma fold1_ext {A} (f g : A -> A -> A) l : (forall a b, f a b = g a b) -> fold1 f l = fold1 g l.
Proof. intros H. induction l as [|a l IH]; [reflexivity|]. cbn. rewrite IH. destruct (fold1 g l); [rewrite H|]; reflexivity. Qed.
Lemma minmax_fold_ok (mx : bool) l : l <> [] -> exists r, minmax_fold mx l = Ok r /\ fold1 (prim_op (PO (if mx then OMax else OMin))) l = Some r.
Proof. destruct l as [|a l]; [congruence|]. intros _. cbn [minmax_fold]. eexists. split; [reflexivity|]. rewrite min_loop_ok, (fold1_ext _ (mm mx)) by apply mm_op. apply fold1_mm. Qed.
Lemma minmax_fold_w (mx : bool) w l : l <> [] -> exists r, minmax_fold mx l = Ok r /\ fold_right (prim_op (PO (if mx then OMax else OMin))) w l = mm mx w r.
Proof.
  destruct l as [|a l]; [congruence|]. intros _. cbn [minmax_fold]. eexists. split; [reflexivity|]. rewrite min_loop_ok, (fold_right_ext' _ (mm mx)) by apply mm_op. cbn [fold_right].
  rewrite !mm_push. f_equal. destruct mx; cbn [mm]; lia.
Qed.
(** ∨ *)
Lemma or_one a : - 2147483648 <= a < 2147483648 -> prim_op (PO OOr) a 1 = 1.
Proof. intros A. cbn [prim_op dbl_op]. rewrite (rnd_exact (a + 1)), (rnd_exact (a * 1)), rnd_exact by (change (2 ^ 53) with 9007199254740992; lia). lia. Qed.
Lemma or_loop_ok xp : within 2147483648 xp -> forall n, (n <= length xp)%nat -> forall o, or_loop n xp = Ok o -> match o with Some i => fold_right (prim_op (PO OOr)) 0 (firstn n xp) = b2z (0 <? i) | None => True end.
Proof.
  intros W. induction n as [|n IH]; intros L o E; cbn [or_loop] in E; [injection E as <-; reflexivity|]. unfold rd in E. destruct (nth_error xp n) as [e|] eqn:N; [|apply nth_error_None in N; lia]. cbn [bind] in E.
  assert (D := down_ok (prim_op (PO OOr)) xp (S n) 0 L). cbn [down] in D. unfold rd in D. rewrite N in D. cbn [bind] in D. rewrite down_ok in D by lia. apply ok_inj in D. rewrite <- D. clear D.
  destruct (e =? 1) eqn:E1.
  - injection E as <-. replace (0 <? Z.of_nat (S n)) with true by lia. assert (e = 1) as -> by lia. change (prim_op (PO OOr) 1 0) with 1.
    assert (W' : within 2147483648 (firstn n xp)). { apply Forall_forall. intros z H. apply (proj1 (Forall_forall _ _) W). rewrite <- (firstn_skipn n xp). apply in_or_app. auto. }
    clear - W'. induction W' as [|a l A W' IH]; [reflexivity|]. cbn [fold_right]. rewrite IH. apply or_one. lia.
  - destruct (negb (e =? 0)) eqn:E0; [injection E as <-; exact I|]. assert (e = 0) as -> by lia. change (prim_op (PO OOr) 0 0) with 0. apply IH; [lia|exact E].
Qed.
Lemma or_loop_total xp : forall n, (n <= length xp)%nat -> exists o, or_loop n xp = Ok o.
Proof. induction n as [|n IH]; intros L; cbn [or_loop]; [eauto|]. unfold rd. destruct (nth_error xp n) as [e|] eqn:N; [|apply nth_error_None in N; lia]. cbn [bind]. destruct (e =? 1); [eauto|]. destruct (negb (e =? 0)); [eauto|]. apply IH. lia. Qed.
