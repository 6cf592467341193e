(** Proofs about CountModel. *)
From Verif Require Import Base ListLib BitsModel BitsSpec BitsProof BitsProof2 SqueezeModel SqueezeProof SlashModel SlashModel2 SlashSpec CountModel CountSpec.
From Coq Require Import ZArith List Bool Lia Arith.
Import ListNotations.
Open Scope Z_scope.
Lemma occ_cons v l i : occurrences (v :: l) i = occurrences l i + (if Z.eq_dec v i then 1 else 0).
Proof. unfold occurrences. cbn [count_occ]. destruct (Z.eq_dec v i); lia. Qed.
Lemma occ_le l i : 0 <= occurrences l i <= Z.of_nat (length l).
Proof. induction l as [|v l IH]; [cbn; lia|]. rewrite occ_cons. cbn [length]. destruct (Z.eq_dec v i); lia. Qed.
Definition at_ (t : list Z) (i : Z) : Z := nth (Z.to_nat i) t 0.
Lemma rdz_at t i : 0 <= i < Z.of_nat (length t) -> rdz t i = Ok (at_ t i).
Proof. intros B. unfold rdz. replace (i <? 0) with false by (symmetry; apply Z.ltb_ge; lia). unfold rd, at_. rewrite (nth_error_nth' t 0) by lia. reflexivity. Qed.
Lemma wrz_at t i v : 0 <= i < Z.of_nat (length t) -> exists t', wrz t i v = Ok t' /\ length t' = length t /\ forall j, 0 <= j -> at_ t' j = if Z.eq_dec i j then v else at_ t j.
Proof.
  intros B. unfold wrz. replace (i <? 0) with false by (symmetry; apply Z.ltb_ge; lia). rewrite wr_ok' by lia. eexists. split; [reflexivity|]. split; [apply upd_length|]. intros j J. unfold at_. destruct (Z.eq_dec i j) as [->|NE].
  - apply nth_error_nth. rewrite nth_error_upd, Nat.eqb_refl. replace (Z.to_nat j <? length t)%nat with true by (symmetry; apply Nat.ltb_lt; lia). reflexivity.
  - destruct (nth_error t (Z.to_nat j)) as [u|] eqn:E.
    + rewrite (nth_error_nth _ _ _ E). apply nth_error_nth. rewrite nth_error_upd. destruct (Nat.eqb_spec (Z.to_nat i) (Z.to_nat j)); [lia|auto].
    + apply nth_error_None in E. rewrite !nth_overflow by (rewrite ?upd_length; lia). reflexivity.
Qed.
Lemma bump_ok inc lim l : (forall c, 0 <= c < lim -> inc c = Ok (c + 1)) -> forall t, Forall (fun v => 0 <= v < Z.of_nat (length t)) l -> (forall i, 0 <= i < Z.of_nat (length t) -> 0 <= at_ t i /\ at_ t i + occurrences l i <= lim) ->
  exists t', bump inc l t = Ok t' /\ length t' = length t /\ forall i, 0 <= i < Z.of_nat (length t) -> at_ t' i = at_ t i + occurrences l i.
Proof.
  intros HI. induction l as [|v l IH]; intros t F H; [exists t; split; auto; split; auto; intros; unfold occurrences; cbn [count_occ]; lia|]. pose proof (Forall_inv F) as V. cbn beta in V. cbn [bump]. rewrite rdz_at by auto. cbn [bind]. pose proof (H v V) as HV. rewrite occ_cons in HV. destruct (Z.eq_dec v v); [|congruence]. pose proof (occ_le l v). rewrite HI by lia. cbn [bind]. destruct (wrz_at t v (at_ t v + 1) V) as (t1 & -> & L1 & G1). cbn [bind]. destruct (IH t1) as (t' & E & L & G).
  - rewrite L1. eapply Forall_inv_tail; eauto.
  - rewrite L1. intros i I. specialize (H i I). rewrite occ_cons in H. rewrite G1 by lia. destruct (Z.eq_dec v i) as [->|]; lia.
  - exists t'. split; auto. split; [congruence|]. intros i I. rewrite G by (rewrite L1; auto). rewrite G1, occ_cons by lia. destruct (Z.eq_dec v i) as [->|]; lia.
Qed.
Lemma mark_ok l : forall t, Forall (fun v => 0 <= v < Z.of_nat (length t)) l -> exists t', mark l t = Ok t' /\ length t' = length t /\ forall i, 0 <= i < Z.of_nat (length t) -> at_ t' i = if 0 <? occurrences l i then 1 else at_ t i.
Proof.
  induction l as [|v l IH]; intros t F; [exists t; auto|]. pose proof (Forall_inv F) as V. cbn beta in V. cbn [mark]. destruct (wrz_at t v 1 V) as (t1 & -> & L1 & G1). cbn [bind]. destruct (IH t1) as (t' & E & L & G); [rewrite L1; eapply Forall_inv_tail; eauto|]. exists t'. split; auto. split; [congruence|]. intros i I. rewrite G by (rewrite L1; auto). rewrite G1, occ_cons by lia. pose proof (occ_le l i). destruct (Z.eq_dec v i) as [->|].
  - destruct (Z.ltb_spec 0 (occurrences l i)), (Z.ltb_spec 0 (occurrences l i + 1)); auto; lia.
  - rewrite Z.add_0_r. reflexivity.
Qed.
Lemma at_zero n i : at_ (repeat 0 n) i = 0.
Proof. unfold at_. destruct (Nat.lt_ge_cases (Z.to_nat i) n); [apply nth_error_nth; apply nth_error_repeat'; auto|apply nth_overflow; rewrite repeat_length; auto]. Qed.
Lemma nth_at t i : (i < length t)%nat -> nth_error t i = Some (at_ t (Z.of_nat i)).
Proof. intros L. unfold at_. rewrite Nat2Z.id. apply nth_error_nth'. auto. Qed.
(** the largest element *)
Definition is_max (l : list Z) (m : Z) : Prop := In m l /\ Forall (fun v => v <= m) l.
Lemma is_max_uniq l a b : is_max l a -> is_max l b -> a = b.
Proof. intros [I1 F1] [I2 F2]. rewrite Forall_forall in *. specialize (F1 _ I2). specialize (F2 _ I1). cbn beta in *. lia. Qed.
Lemma fold_is_max (f : Z -> Z) l : forall m0, (forall v, In v l -> m0 <= fold_left (fun m c => if m <? f c then f c else m) l m0 /\ f v <= fold_left (fun m c => if m <? f c then f c else m) l m0) /\ (fold_left (fun m c => if m <? f c then f c else m) l m0 = m0 \/ exists v, In v l /\ fold_left (fun m c => if m <? f c then f c else m) l m0 = f v) /\ m0 <= fold_left (fun m c => if m <? f c then f c else m) l m0.
Proof.
  induction l as [|c l IH]; intros m0; cbn [fold_left]; [split; [intros v []|split; [auto|lia]]|]. set (m1 := if m0 <? f c then f c else m0). assert (B : m0 <= m1 /\ f c <= m1) by (unfold m1; destruct (Z.ltb_spec m0 (f c)); lia). destruct (IH m1) as (H1 & H2 & H3). split; [|split; [|lia]].
  - intros v [<-|IV]; [lia|]. destruct (H1 v IV). lia.
  - destruct H2 as [E|(v & IV & E)]; [|right; exists v; split; [right; auto|auto]]. rewrite E. unfold m1. destruct (m0 <? f c); [right; exists c; split; [left; auto|auto]|left; auto].
Qed.
Lemma im_int_ok k l : (k = 8 \/ k = 16 \/ k = 32) -> Forall (fun z => - 2 ^ (k - 1) <= z < 2 ^ (k - 1)) l -> l <> [] -> Z.of_nat (length l) < 2 ^ 32 ->
  (Exists (fun z => z < 0) l -> im_int k l = Err) /\
  (Forall (fun z => 0 <= z) l -> forall m, is_max l m -> im_int k l = Err /\ 2 ^ 28 - 1000 <= m \/ exists r, im_int k l = Ok r /\ counted l r) /\
  (Forall (fun z => 0 <= z) l -> forall m, is_max l m -> m + 1 <= 2 ^ 29 - 1000 -> Z.of_nat (length l) < 2 ^ 31 -> exists r, im_int k l = Ok r /\ counted l r).
Proof.
  intros K F NE LL. assert (KP : 0 < k <= 32) by lia. assert (P2 : 2 ^ k = 2 * 2 ^ (k - 1)) by (rewrite <- Z.pow_succ_r by lia; f_equal; lia). assert (PP : 0 < 2 ^ (k - 1)) by (apply Z.pow_pos_nonneg; lia). assert (PB : 2 ^ (k - 1) <= 2 ^ 31) by (apply Z.pow_le_mono_r; lia).
  unfold im_int. set (max := fold_left _ _ _). destruct l as [|c0 l']; [congruence|]. cbn [hd tl] in max. set (l := c0 :: l') in *. destruct (fold_is_max (to_u k) l' (to_u k c0)) as (M1 & M2 & M3). fold max in M1, M2, M3.
  assert (ML : forall v, In v l -> to_u k v <= max) by (intros v [<-|IV]; [exact M3|apply M1; auto]). assert (MI : exists v, In v l /\ max = to_u k v) by (destruct M2 as [E|(v & IV & E)]; [exists c0; split; [left; auto|auto]|exists v; split; [right; auto|auto]]).
  assert (TU : forall v, In v l -> to_u k v = if v <? 0 then v + 2 ^ k else v). { intros v IV. rewrite Forall_forall in F. specialize (F v IV). cbn beta in F. unfold to_u. destruct (Z.ltb_spec v 0); [|apply Z.mod_small; lia]. symmetry. apply Z.mod_unique with (-1); lia. }
  destruct MI as (mv & IM & EM). pose proof F as F'. rewrite Forall_forall in F'. pose proof (F' mv IM) as BM. cbn beta in BM. pose proof (TU mv IM) as TM. rewrite <- EM in TM.
  assert (SG : to_s k max = mv). { rewrite EM. unfold to_s, to_u. rewrite Zplus_mod_idemp_l. fold (to_s k mv). apply to_s_id; lia. }
  rewrite SG.
  assert (NEG : Forall (fun z => 0 <= z) l -> 0 <= mv) by (intros H; rewrite Forall_forall in H; apply H; auto).
  split; [|].
  - intros EX. apply Exists_exists in EX. destruct EX as (v & IV & V). pose proof (ML v IV) as MV. rewrite TU in MV by auto. destruct (Z.ltb_spec v 0) as [_|]; [|lia]. pose proof (F' v IV) as BV. cbn beta in BV. destruct (Z.ltb_spec mv 0); [reflexivity|]. destruct (Z.ltb_spec mv 0); lia.
  - assert (OK : Forall (fun z => 0 <= z) l -> is_max l mv /\ exists t, bump inc_usz l (repeat 0 (Z.to_nat (to_u 32 (max + 1)))) = Ok t /\ to_u 32 (max + 1) = mv + 1 /\ Z.of_nat (length t) = mv + 1 /\ forall i, 0 <= i < mv + 1 -> at_ t i = occurrences l i).
    { intros NN. pose proof (NEG NN) as M0. destruct (Z.ltb_spec mv 0); [lia|]. assert (IMX : is_max l mv). { split; auto. apply Forall_forall. intros v IV. pose proof (ML v IV) as MV. rewrite TU in MV by auto. rewrite Forall_forall in NN. specialize (NN v IV). cbn beta in NN. destruct (Z.ltb_spec v 0); lia. } split; auto. assert (ER : to_u 32 (max + 1) = mv + 1) by (rewrite TM; apply to_u_id; lia). rewrite ER.
      destruct (bump_ok inc_usz (2 ^ 32 - 1) l) with (t := repeat 0 (Z.to_nat (mv + 1))) as (t & E & L & G).
      - intros c C. unfold inc_usz. rewrite to_u_id by lia. reflexivity.
      - rewrite repeat_length, Z2Nat.id by lia. destruct IMX as [_ FM]. rewrite Forall_forall in *. intros v IV. specialize (FM v IV). specialize (NN v IV). cbn beta in *. lia.
      - intros i I. rewrite at_zero. pose proof (occ_le l i). lia.
      - rewrite repeat_length in L, G. exists t. split; auto. split; auto. split; [lia|]. intros i I. rewrite G by lia. rewrite at_zero. lia. }
    split.
    + intros NN m IMX. destruct (OK NN) as (IMV & t & E & ER & LT & G). assert (m = mv) as -> by (eapply is_max_uniq; eauto). pose proof (NEG NN). destruct (Z.ltb_spec mv 0); [lia|]. rewrite E. cbn [bind]. rewrite ER. destruct (Z.leb_spec (Z.of_nat (length l)) (2 ^ 31 - 1)) as [LS|LS]; unfold alloc.
      * change (2 ^ 31 / 4 - 1000) with (2 ^ 29 - 1000). destruct (Z.ltb_spec (2 ^ 29 - 1000) (mv + 1)); cbn [bind]; [left; split; [auto|lia]|]. right. eexists. split; [reflexivity|]. split; [exists mv; rewrite map_length; destruct IMV; auto|]. intros i IB. rewrite map_length in IB. rewrite nth_error_map, nth_at by auto. cbn [option_map]. rewrite G by lia. pose proof (occ_le l (Z.of_nat i)). rewrite to_s_id by lia. reflexivity.
      * change (2 ^ 31 / 8 - 1000) with (2 ^ 28 - 1000). destruct (Z.ltb_spec (2 ^ 28 - 1000) (mv + 1)); cbn [bind]; [left; split; [auto|lia]|]. right. eexists. split; [reflexivity|]. split; [exists mv; destruct IMV; auto|]. intros i IB. rewrite nth_at by auto. rewrite G by lia. reflexivity.
    + intros NN m IMX MB LS. destruct (OK NN) as (IMV & t & E & ER & LT & G). assert (m = mv) as -> by (eapply is_max_uniq; eauto). pose proof (NEG NN). destruct (Z.ltb_spec mv 0); [lia|]. rewrite E. cbn [bind]. rewrite ER. replace (Z.of_nat (length l) <=? 2 ^ 31 - 1) with true by (symmetry; apply Z.leb_le; lia). unfold alloc. change (2 ^ 31 / 4 - 1000) with (2 ^ 29 - 1000). replace (2 ^ 29 - 1000 <? mv + 1) with false by (symmetry; apply Z.ltb_ge; lia). cbn [bind]. eexists. split; [reflexivity|]. split; [exists mv; rewrite map_length; destruct IMV; auto|]. intros i IB. rewrite map_length in IB. rewrite nth_error_map, nth_at by auto. cbn [option_map]. rewrite G by lia. pose proof (occ_le l (Z.of_nat i)). rewrite to_s_id by lia. reflexivity.
Qed.

Lemma f64_max_ok l : forall m0, forallb q_fusz l = true -> exists m, f64_max l m0 = Ok m /\ m0 <= m /\ Forall (fun v => v <= m) (map znum l) /\ (m = m0 \/ In m (map znum l)).
Proof.
  induction l as [|e l IH]; intros m0 Q; [exists m0; cbn; repeat split; auto; lia|]. cbn [forallb] in Q. apply andb_true_iff in Q. destruct Q as [Q1 Q2]. cbn [f64_max]. rewrite Q1. cbn [negb]. destruct e as [c|]; [|discriminate]. destruct (IH (if m0 <? c then c else m0) Q2) as (m & E & B & F & I). exists m. split; auto. cbn [map znum]. assert (m0 <= m /\ c <= m) by (destruct (Z.ltb_spec m0 c); lia). split; [lia|]. split; [constructor; auto; lia|]. destruct I as [->|I]; [|right; right; auto]. destruct (m0 <? c); [right; left; auto|left; auto].
Qed.
Lemma f64_max_err l : forall m0, forallb q_fusz l = false -> f64_max l m0 = Err.
Proof. induction l as [|e l IH]; intros m0 Q; [discriminate|]. cbn [forallb] in Q. cbn [f64_max]. destruct (q_fusz e) eqn:E; cbn [negb]; auto. destruct e; auto. Qed.
(** the ascending part [a], and what is left *)
Lemma f64_asc_ok l : forall m0, forallb q_fusz l = true -> exists a rest m, l = a ++ rest /\ f64_asc l m0 = Ok (m, rest) /\ m0 <= m /\ Forall (fun v => m0 < v <= m) (map znum a) /\ (m = m0 /\ a = [] \/ In m (map znum a)) /\ NoDup (map znum a).
Proof.
  induction l as [|e l IH]; intros m0 Q; [exists [], [], m0; cbn; repeat split; auto; try lia; constructor|]. cbn [forallb] in Q. apply andb_true_iff in Q. destruct Q as [Q1 Q2]. cbn [f64_asc]. rewrite Q1. cbn [negb]. destruct e as [c|]; [|discriminate]. destruct (Z.leb_spec c m0) as [L|L].
  - exists [], (Some c :: l), m0. cbn. repeat split; auto; try lia; constructor.
  - destruct (IH c Q2) as (a & rest & m & E & ER & B & F & I & ND). exists (Some c :: a), rest, m. split; [cbn; congruence|]. split; auto. split; [lia|]. cbn [map znum]. split; [constructor; [lia|eapply Forall_impl; [|exact F]; cbn beta; intros; lia]|]. split; [right; destruct I as [[-> ->]|I]; [left; auto|right; auto]|]. constructor; auto. intros IN. rewrite Forall_forall in F. specialize (F c IN). lia.
Qed.
Lemma f64_asc_err l : forall m0, forallb q_fusz l = false -> f64_asc l m0 = Err \/ exists m rest, f64_asc l m0 = Ok (m, rest) /\ forallb q_fusz rest = false.
Proof. induction l as [|e l IH]; intros m0 Q; [discriminate|]. pose proof Q as Q'. cbn [forallb] in Q. cbn [f64_asc]. destruct (q_fusz e) eqn:E; cbn [negb]; auto. destruct e as [c|]; auto. destruct (c <=? m0); [right; eauto|apply IH; auto]. Qed.
Lemma q_range l : forallb q_fusz l = true -> Forall (fun v => 0 <= v < 2 ^ 32) (map znum l).
Proof. intros Q. rewrite forallb_forall in Q. apply Forall_forall. intros v IV. apply in_map_iff in IV. destruct IV as ([z|] & <- & IE); specialize (Q _ IE); cbn [q_fusz] in Q; [|discriminate]. apply andb_true_iff in Q. destruct Q as [A B]. apply Z.leb_le in A. apply Z.ltb_lt in B. cbn [znum]. lia. Qed.
Lemma im_f64_ok cv l : l <> [] -> forallb q_fusz l = true -> forall m, is_max (map znum l) m ->
  (m + 1 < 2 ^ 32 \/ cv = 0) -> (im_f64 cv l = Err /\ (2 ^ 29 - 1000 <= m \/ 2 ^ 31 <= Z.of_nat (length l))) \/ exists r, im_f64 cv l = Ok r /\ counted (map znum l) r.
Proof.
  intros NE Q m IMX CV. unfold im_f64. destruct (f64_asc_ok l (-1) Q) as (a & rest & m1 & EL & -> & B1 & F1 & I1 & ND). cbn [bind]. assert (QR : forallb q_fusz rest = true) by (rewrite EL, forallb_app in Q; apply andb_true_iff in Q; apply Q). destruct (f64_max_ok rest m1 QR) as (m2 & -> & B2 & F2 & I2). cbn [bind]. pose proof (q_range l Q) as RG.
  assert (M2 : is_max (map znum l) m2).
  { rewrite EL, map_app. split.
    - apply in_or_app. destruct I2 as [->|I2]; [|right; auto]. destruct I1 as [[-> ->]|I1]; [|left; auto]. exfalso. cbn [app] in EL. subst rest. destruct l as [|e l']; [congruence|]. cbn [map] in F2, RG. apply Forall_inv in F2. apply Forall_inv in RG. cbn beta in *. lia.
    - apply Forall_app. split; auto. eapply Forall_impl; [|exact F1]. cbn beta. intros; lia. }
  assert (m2 = m) as -> by (eapply is_max_uniq; eauto). pose proof IMX as [IM FM]. pose proof RG as RG'. rewrite Forall_forall in RG'. pose proof (RG' m IM) as BM. cbn beta in BM.
  destruct (Z.ltb_spec (m + 1) (2 ^ 32)) as [LT|GE]; [|destruct CV as [|CV]; [lia|rewrite CV; left; split; [reflexivity|lia]]].
  destruct (Z.eqb_spec (m + 1) 0); [lia|].
  assert (FB : Forall (fun v => 0 <= v < Z.of_nat (length (repeat 0 (Z.to_nat (m + 1))))) (map znum l)). { rewrite repeat_length, Z2Nat.id by lia. rewrite Forall_forall in *. intros v IV. specialize (FM v IV). specialize (RG' v IV). cbn beta in *. lia. }
  destruct rest as [|e rest].
  - unfold alloc_bits. destruct (Z.ltb_spec (2 ^ 32 - 1 - 65) (m + 1)); cbn [bind]; [left; split; [auto|lia]|]. right. destruct (mark_ok (map znum l) _ FB) as (t & -> & L & G). rewrite repeat_length in L, G. exists t. split; auto. split; [exists m; split; auto; split; auto; lia|]. intros i IB. rewrite nth_at by auto. rewrite G by lia. rewrite at_zero. rewrite app_nil_r in EL. subst a. pose proof (occ_le (map znum l) (Z.of_nat i)). f_equal. assert (occurrences (map znum l) (Z.of_nat i) <= 1). { unfold occurrences. pose proof (proj1 (NoDup_count_occ Z.eq_dec (map znum l)) ND (Z.of_nat i)). lia. } destruct (Z.ltb_spec 0 (occurrences (map znum l) (Z.of_nat i))); lia.
  - destruct (Z.ltb_spec (2 ^ 31 - 1) (Z.of_nat (length l))); [left; split; [auto|lia]|]. unfold alloc. change (2 ^ 31 / 4 - 1000) with (2 ^ 29 - 1000). destruct (Z.ltb_spec (2 ^ 29 - 1000) (m + 1)); cbn [bind]; [left; split; [auto|lia]|]. right. destruct (bump_ok inc_i32 (2 ^ 31 - 1) (map znum l)) with (t := repeat 0 (Z.to_nat (m + 1))) as (t & -> & L & G).
    + intros c C. unfold inc_i32. destruct (Z.eqb_spec c (2 ^ 31 - 1)); [lia|auto].
    + exact FB.
    + intros i I. rewrite at_zero. pose proof (occ_le (map znum l) i). rewrite map_length in *. lia.
    + rewrite repeat_length in L, G. exists t. split; auto. split; [exists m; split; auto; split; auto; lia|]. intros i IB. rewrite nth_at by auto. rewrite G by lia. rewrite at_zero. f_equal.
Qed.
Lemma im_f64_err cv l : forallb q_fusz l = false -> im_f64 cv l = Err.
Proof. intros Q. unfold im_f64. destruct (f64_asc_err l (-1) Q) as [->|(m & rest & -> & QR)]; [reflexivity|]. cbn [bind]. rewrite f64_max_err by auto. reflexivity. Qed.
(** bits *)
Definition bz (b : bool) : Z := if b then 1 else 0.
Lemma occ_bits l : occurrences (map bz l) 1 = count_true l /\ occurrences (map bz l) 0 = Z.of_nat (length l) - count_true l.
Proof. induction l as [|b l [I1 I0]]; [cbn; auto|]. cbn [map]. rewrite !occ_cons, I1, I0. cbn [count_true length]. destruct b; cbn [bz]; repeat (destruct (Z.eq_dec _ _); try lia). Qed.
Lemma im_bits_ok cv src n : words src -> 0 < n <= 64 * Z.of_nat (length src) -> n < 2 ^ 32 -> exists r, slash_im cv (CB src n) = Ok r /\ counted (map bz (bits_of src 0 n)) r.
Proof.
  intros W N NB. unfold slash_im. cbn [c_ia]. destruct (Z.eqb_spec n 0); [lia|]. rewrite bit_sum_spec by (unfold len; lia). cbn [bind]. set (bs := bits_of src 0 n). assert (LB : Z.of_nat (length bs) = n) by (unfold bs, bits_of; rewrite map_length, seq_length; lia). destruct (occ_bits bs) as [O1 O0]. set (s := count_true bs) in *. assert (S0 : 0 <= s <= n) by (pose proof (occ_le (map bz bs) 1); rewrite map_length in *; lia).
  assert (NE : bs <> []) by (intros E; rewrite E in LB; cbn in LB; lia).
  destruct (Z.ltb_spec 0 s) as [P|P].
  - exists [to_u 32 (n - s); s]. split; [reflexivity|]. split.
    + exists 1. split; [|split; [|reflexivity]].
      * apply (count_occ_In Z.eq_dec). unfold occurrences in O1. lia.
      * apply Forall_forall. intros v IV. apply in_map_iff in IV. destruct IV as (b & <- & _). unfold bz. destruct b; lia.
    + intros i IB. cbn in IB. destruct i as [|[|i]]; [|cbn [nth_error]; change (Z.of_nat 1) with 1; rewrite O1; reflexivity|lia]. cbn [nth_error]. change (Z.of_nat 0) with 0. rewrite O0, LB. rewrite to_u_id by lia. reflexivity.
  - assert (s = 0) by lia. exists [to_u 32 (n - s)]. split; [reflexivity|]. split.
    + exists 0. split; [|split; [|reflexivity]].
      * apply (count_occ_In Z.eq_dec). unfold occurrences in O0. lia.
      * apply Forall_forall. intros v IV. destruct (Z.eq_dec v 0); [lia|]. exfalso. apply in_map_iff in IV. destruct IV as (b & Eb & IB). destruct b; [|cbn in Eb; lia]. assert (I1 : In 1 (map bz bs)) by (apply in_map_iff; exists true; auto). apply (count_occ_In Z.eq_dec) in I1. unfold occurrences in O1. lia.
    + intros i IB. cbn in IB. destruct i as [|i]; [|lia]. cbn [nth_error]. change (Z.of_nat 0) with 0. rewrite O0, LB. rewrite to_u_id by lia. reflexivity.
Qed.
