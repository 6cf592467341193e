From Verif Require Import Base ListLib BitsModel SqueezeModel SqueezeProof GroupModel GroupSpec GroupProof.
From Coq Require Import List Lia.
Open Scope Z_scope.

Section G.
Variables (A : Type) (junk : A) (uc ria : Z) (c : list (Z * list A)).
Hypothesis UC : 0 <= uc.
Hypothesis CU : Forall (fun p => Z.of_nat (length (snd p)) = uc) c.
Hypothesis R0 : 0 <= ria.
Definition sel (n : Z) (c : list (Z * list A)) : list (list A) := map snd (filter (fun p => fst p =? n) c).
Definition X : list A := concat (map snd c).
Definition pre (n : Z) (a : nat) : list A := concat (sel n (firstn a c)).
Definition L (n : Z) : Z := Z.of_nat (length (sel n c)).
Lemma concat_len (l : list (list A)) : Forall (fun x => Z.of_nat (length x) = uc) l -> Z.of_nat (length (concat l)) = Z.of_nat (length l) * uc.
Proof. induction 1 as [|a l H F IH]; [reflexivity|]. cbn [concat length]. rewrite app_length. nia. Qed.
Lemma firstn_concat (l : list (list A)) : Forall (fun x => Z.of_nat (length x) = uc) l -> forall k, (k <= length l)%nat -> firstn (Z.to_nat (Z.of_nat k * uc)) (concat l) = concat (firstn k l) /\ skipn (Z.to_nat (Z.of_nat k * uc)) (concat l) = concat (skipn k l).
Proof.
  intros F. induction F as [|a l H F IH]; intros k K; destruct k as [|k]; cbn [length] in K; try lia; try (split; reflexivity). destruct (IH k) as [I1 I2]; [lia|]. cbn [concat firstn skipn]. assert (0 <= Z.of_nat k * uc) by nia. replace (Z.to_nat (Z.of_nat (S k) * uc)) with (length a + Z.to_nat (Z.of_nat k * uc))%nat by nia. rewrite firstn_app_2, I1. split; auto. rewrite skipn_app, skipn_all2 by lia. cbn [app]. replace (length a + Z.to_nat (Z.of_nat k * uc) - length a)%nat with (Z.to_nat (Z.of_nat k * uc)) by lia. exact I2.
Qed.
Lemma Forall_firstn {B} (P : B -> Prop) k l : Forall P l -> Forall P (firstn k l). Proof. intros F. rewrite <- (firstn_skipn k l) in F. apply Forall_app in F. tauto. Qed.
Lemma Forall_skipn {B} (P : B -> Prop) k l : Forall P l -> Forall P (skipn k l). Proof. intros F. rewrite <- (firstn_skipn k l) in F. apply Forall_app in F. tauto. Qed.
Lemma Forall_snd l : Forall (fun p : Z * list A => Z.of_nat (length (snd p)) = uc) l -> Forall (fun x => Z.of_nat (length x) = uc) (map snd l).
Proof. induction 1; cbn [map]; constructor; auto. Qed.
Lemma sel_uniform n l : Forall (fun p : Z * list A => Z.of_nat (length (snd p)) = uc) l -> Forall (fun x => Z.of_nat (length x) = uc) (sel n l).
Proof. intros F. apply Forall_snd. apply Forall_forall. intros p H. apply filter_In in H. rewrite Forall_forall in F. apply F. tauto. Qed.
Lemma sel_app n a b : sel n (a ++ b) = sel n a ++ sel n b. Proof. unfold sel. rewrite filter_app, map_app. reflexivity. Qed.
Lemma sel_all n l : Forall (fun p : Z * list A => fst p = n) l -> sel n l = map snd l.
Proof. induction 1 as [|p l H F IH]; [reflexivity|]. unfold sel in *. cbn [filter map]. rewrite H, Z.eqb_refl. cbn [map]. rewrite IH. reflexivity. Qed.
Lemma sel_none n m l : n <> m -> Forall (fun p : Z * list A => fst p = m) l -> sel n l = [].
Proof. intros N. induction 1 as [|p l H F IH]; [reflexivity|]. unfold sel in *. cbn [filter]. rewrite H. replace (m =? n) with false by lia. exact IH. Qed.
Definition rinv (a : nat) (rp : list (group A)) : Prop := length rp = Z.to_nat ria /\ forall n, 0 <= n < ria -> exists d, nth_error rp (Z.to_nat n) = Some (L n, d) /\ Z.of_nat (length d) = L n * uc /\ firstn (length (pre n a)) d = pre n a.
Lemma pre_len n a : Z.of_nat (length (pre n a)) = Z.of_nat (length (sel n (firstn a c))) * uc.
Proof. apply concat_len, sel_uniform, Forall_firstn, CU. Qed.
Lemma sel_le n a : (length (sel n (firstn a c)) <= length (sel n c))%nat.
Proof. rewrite <- (firstn_skipn a c) at 2. rewrite sel_app, app_length. lia. Qed.
Lemma seg_split a b : (a <= b)%nat -> firstn b c = firstn a c ++ firstn (b - a) (skipn a c).
Proof. intros H. rewrite <- (firstn_skipn a (firstn b c)) at 1. rewrite firstn_firstn, Nat.min_l by auto. f_equal. rewrite firstn_skipn_comm. do 2 f_equal. lia. Qed.
Lemma seg_pre a b n m : (a <= b)%nat -> Forall (fun p => fst p = n) (firstn (b - a) (skipn a c)) -> pre m b = if m =? n then pre m a ++ concat (map snd (firstn (b - a) (skipn a c))) else pre m a.
Proof.
  intros H F. unfold pre. rewrite (seg_split a b H), sel_app. destruct (Z.eqb_spec m n) as [->|N]; [rewrite (sel_all n _ F), concat_app; reflexivity|]. rewrite (sel_none m n _ N F), app_nil_r. reflexivity.
Qed.
Lemma skip_seg a b n rp : (a <= b)%nat -> n < 0 -> Forall (fun p => fst p = n) (firstn (b - a) (skipn a c)) -> rinv a rp -> rinv b rp.
Proof. intros H N F [RL R]. split; auto. intros m M. destruct (R m M) as (d & D). exists d. rewrite (seg_pre a b n m H F). replace (m =? n) with false by lia. exact D. Qed.
Lemma put_seg a b n rp : (a <= b <= length c)%nat -> 0 <= n < ria -> Forall (fun p => fst p = n) (firstn (b - a) (skipn a c)) -> rinv a rp ->
  exists rp', put A rp n (Z.of_nat (length (pre n a))) X (Z.of_nat a * uc) (Z.of_nat (b - a) * uc) = Ok rp' /\ rinv b rp'.
Proof.
  intros H N F [RL R]. destruct (R n N) as (d & E & DL & DP). unfold put. replace (n <? 0) with false by lia. unfold rd at 1. rewrite E. cbn [bind fst snd].
  assert (FU := Forall_snd c CU). assert (SEG : firstn (Z.to_nat (Z.of_nat (b - a) * uc)) (skipn (Z.to_nat (Z.of_nat a * uc)) X) = concat (map snd (firstn (b - a) (skipn a c)))).
  { unfold X. destruct (firstn_concat (map snd c) FU a) as [_ S]; [rewrite map_length; lia|]. rewrite S. assert (FS := Forall_skipn _ a _ FU). destruct (firstn_concat _ FS (b - a)%nat) as [S2 _]; [rewrite skipn_length, map_length; lia|]. rewrite S2. rewrite skipn_map, firstn_map. reflexivity. }
  assert (XL : Z.of_nat (length X) = Z.of_nat (length c) * uc) by (unfold X; rewrite concat_len by auto; rewrite map_length; reflexivity).
  assert (SL : Z.of_nat (length (concat (map snd (firstn (b - a) (skipn a c))))) = Z.of_nat (b - a) * uc). { rewrite concat_len by (apply Forall_snd, Forall_firstn, Forall_skipn, CU). rewrite map_length, firstn_length, skipn_length. f_equal. lia. }
  assert (PB := seg_pre a b n n (proj1 H) F). rewrite Z.eqb_refl in PB. assert (PL := pre_len n b). pose proof (sel_le n b) as LE. assert (LB : Z.of_nat (length (pre n b)) <= L n * uc) by (rewrite PL; unfold L; apply Z.mul_le_mono_nonneg_r; lia). assert (PBL : length (pre n b) = (length (pre n a) + length (concat (map snd (firstn (b - a) (skipn a c)))))%nat) by (rewrite PB, app_length; reflexivity).
  assert (Q1 : 0 <= Z.of_nat a * uc) by nia. assert (Q2 : 0 <= Z.of_nat (b - a) * uc) by nia. assert (Q3 : Z.of_nat a * uc + Z.of_nat (b - a) * uc <= Z.of_nat (length c) * uc) by (rewrite <- Z.mul_add_distr_r; apply Z.mul_le_mono_nonneg_r; lia).
  unfold blit. replace (_ && _ && _ && _ && _) with true by lia. rewrite SEG. set (seg := concat (map snd (firstn (b - a) (skipn a c)))) in *. cbn [bind]. rewrite Nat2Z.id, DP. rewrite wr_ok by lia. eexists. split; [reflexivity|]. split; [rewrite upd_len; auto|].
  intros m M. rewrite upd_nth_error by lia. destruct (Nat.eqb_spec (Z.to_nat m) (Z.to_nat n)) as [EQ|NE].
  - replace m with n by lia. eexists. split; [reflexivity|]. split. { rewrite !app_length, skipn_length. lia. } rewrite PB. rewrite app_assoc. rewrite firstn_app, Nat.sub_diag, firstn_all, firstn_O, app_nil_r. reflexivity.
  - destruct (R m M) as (d' & D'). exists d'. rewrite (seg_pre a b n m (proj1 H) F). replace (m =? n) with false by lia. exact D'.
Qed.
(** the end: everything is written *)
Definition spec (n : Z) : group A := (L n, concat (sel n c)).
Lemma rinv_end rp : rinv (length c) rp -> rp = map spec (zs ria).
Proof.
  intros [RL R]. apply (nth_ext _ _ (0, []) (0, [])). { unfold zs. rewrite !map_length, seq_length. auto. } intros i I. change (length rp) with (@length (group A) rp) in I; unfold group in *; rewrite RL in I. destruct (R (Z.of_nat i)) as (d & E & DL & DP); [lia|]. rewrite Nat2Z.id in E. rewrite (nth_error_nth rp i (0, []) E). unfold zs. rewrite map_map. rewrite (nth_indep _ (0, []) ((fun x => spec (Z.of_nat x)) O)) by (rewrite map_length, seq_length; auto). rewrite (map_nth (fun x => spec (Z.of_nat x))), seq_nth by auto. cbn [Nat.add].
  unfold spec. f_equal. pose proof (pre_len (Z.of_nat i) (length c)) as PL. unfold pre in *. rewrite firstn_all in *. fold (L (Z.of_nat i)) in PL. rewrite firstn_all2 in DP by lia. exact DP.
Qed.
Lemma rinv_alloc : rinv 0 (alloc A junk uc (map L (zs ria))).
Proof.
  unfold rinv, alloc, zs, group. rewrite !map_map. split; [rewrite map_length, seq_length; auto|]. intros n N. assert (E : nth_error (map (fun x => if L (Z.of_nat x) =? 0 then (0, []) else (L (Z.of_nat x), repeat junk (Z.to_nat (L (Z.of_nat x) * uc)))) (seq 0 (Z.to_nat ria))) (Z.to_nat n) = Some (if L n =? 0 then (0, []) else (L n, repeat junk (Z.to_nat (L n * uc))))).
  { erewrite map_nth_error; [|rewrite (nth_error_nth' _ O) by (rewrite seq_length; lia); rewrite seq_nth by lia; reflexivity]. cbn [Nat.add]. rewrite Z2Nat.id by lia. reflexivity. }
  rewrite E. assert (LN : 0 <= L n) by (unfold L; lia). destruct (Z.eqb_spec (L n) 0) as [Z0|NZ]; eexists; (split; [rewrite ?Z0; reflexivity|]); (split; [|reflexivity]). - rewrite Z0. reflexivity. - rewrite repeat_length. nia.
Qed.
Definition pinv (scale : Z) (a : nat) (pos : list Z) : Prop := length pos = Z.to_nat ria /\ forall n, 0 <= n < ria -> nth (Z.to_nat n) pos 0 = scale * Z.of_nat (length (sel n (firstn a c))).
Lemma pinv_seg scale a b n pos : (a <= b <= length c)%nat -> 0 <= n < ria -> Forall (fun p => fst p = n) (firstn (b - a) (skipn a c)) -> pinv scale a pos -> pinv scale b (upd pos (Z.to_nat n) (nth (Z.to_nat n) pos 0 + scale * Z.of_nat (b - a))).
Proof.
  intros H N F [PL P]. split; [rewrite upd_len; auto|]. intros m M. rewrite upd_nth by lia. rewrite (seg_split a b) by lia. rewrite sel_app, app_length. destruct (Nat.eqb_spec (Z.to_nat m) (Z.to_nat n)) as [E|E].
  - replace m with n by lia. rewrite P by lia. rewrite (sel_all n _ F), map_length, firstn_length, skipn_length. rewrite Nat2Z.inj_add, Z.mul_add_distr_l. do 3 f_equal. lia.
  - assert (m <> n) by lia. rewrite (sel_none m n _ H0 F). cbn [length]. rewrite Nat.add_0_r. apply P. lia.
Qed.
Lemma pinv_skip scale a b n pos : (a <= b <= length c)%nat -> n < 0 -> Forall (fun p => fst p = n) (firstn (b - a) (skipn a c)) -> pinv scale a pos -> pinv scale b pos.
Proof. intros H N F [PL P]. split; auto. intros m M. rewrite (seg_split a b) by lia. rewrite sel_app, app_length. assert (Hm : m <> n) by lia. rewrite (sel_none m n _ Hm F). cbn [length]. rewrite Nat.add_0_r. apply P. lia. Qed.
Lemma pinv_zero scale pos : length pos = Z.to_nat ria -> Forall (fun z => z = 0) pos -> pinv scale 0 pos.
Proof. intros H F. split; auto. intros n N. cbn [firstn]. unfold sel. cbn [filter map length]. rewrite Z.mul_0_r. rewrite Forall_forall in F. apply F. apply nth_In. lia. Qed.
Lemma map_fst_skip a : map fst (skipn a c) = skipn a (map fst c). Proof. rewrite skipn_map. reflexivity. Qed.
Lemma cells_ok : forall w a pos rp, w = skipn a (map fst c) -> (a <= length c)%nat -> Forall (fun n => n < ria) w -> rinv a rp -> pinv 1 a pos -> cells_loop A w X uc (Z.of_nat a) pos rp = Ok (map spec (zs ria)).
Proof.
  induction w as [|n w IH]; intros a pos rp W AL F RI PI.
  - assert (a = length c). { assert (HH : length (skipn a (map fst c)) = O) by (rewrite <- W; reflexivity). rewrite skipn_length, map_length in HH. lia. } subst a. cbn [cells_loop]. f_equal. apply rinv_end; auto.
  - assert (AL' : (a < length c)%nat). { destruct (Nat.lt_ge_cases a (length c)); auto. rewrite skipn_all2 in W by (rewrite map_length; lia). discriminate. }
    assert (W' : w = skipn (S a) (map fst c)). { clear - W. revert a W. induction (map fst c) as [|b l IH]; intros [|a] W; cbn [skipn] in *; try discriminate; [congruence|]. apply (IH a); auto. }
    pose proof (Forall_inv F) as FN. pose proof (Forall_inv_tail F) as F'. cbv beta in FN. assert (SG : Forall (fun p => fst p = n) (firstn (S a - a) (skipn a c))). { replace (S a - a)%nat with 1%nat by lia. destruct (skipn a c) as [|p q] eqn:E; [constructor|]. rewrite <- map_fst_skip, E in W. cbn [map] in W. cbn [firstn]. constructor; [congruence|constructor]. }
    cbn [cells_loop]. replace (Z.of_nat a + 1) with (Z.of_nat (S a)) by lia. destruct (Z.ltb_spec n 0) as [NG|NG].
    + apply IH; auto. { apply (skip_seg a (S a) n); auto; lia. } { apply (pinv_skip 1 a (S a) n); auto; lia. }
    + assert (PN := proj2 PI n). rewrite (nth_rd pos _ 0) by (destruct PI; lia). cbn [bind]. destruct (put_seg a (S a) n rp) as (rp' & E & R'); auto; try lia. rewrite pre_len in E. replace (S a - a)%nat with 1%nat in E by lia. rewrite PN by lia. replace (Z.of_nat 1 * uc) with uc in E by lia. replace (1 * Z.of_nat (length (sel n (firstn a c))) * uc) with (Z.of_nat (length (sel n (firstn a c))) * uc) by lia. rewrite E. cbn [bind]. rewrite wr_ok by (destruct PI; lia). cbn [bind]. apply IH; auto. pose proof (pinv_seg 1 a (S a) n pos) as Q. replace (S a - a)%nat with 1%nat in Q by lia. rewrite PN in Q by lia. replace (1 * Z.of_nat 1) with 1 in Q by lia. apply Q; auto; try lia. replace (S a - a)%nat with 1%nat in SG by lia. exact SG.
Qed.
Lemma chunks_ok : forall l a pos rp, expand l = skipn a (map fst c) -> (a <= length c)%nat -> Forall (fun p => 0 <= snd p) l -> Forall (fun p => fst p < ria) l -> rinv a rp -> pinv uc a pos -> chunks A l X uc (Z.of_nat a * uc) pos rp = Ok (map spec (zs ria)).
Proof.
  induction l as [|[n k] l IH]; intros a pos rp W AL F0 F RI PI.
  - assert (a = length c). { assert (HH : length (skipn a (map fst c)) = O) by (rewrite <- W; reflexivity). rewrite skipn_length, map_length in HH. lia. } subst a. cbn [chunks]. f_equal. apply rinv_end; auto.
  - inversion F as [|? ? FN F']; subst. inversion F0 as [|? ? FK F0']; subst. cbn [fst snd] in *. unfold expand in W. cbn [map concat fst snd] in W. fold (expand l) in W. set (b := (a + Z.to_nat k)%nat).
    assert (BL : (b <= length c)%nat). { assert (HH := f_equal (@length Z) W). rewrite app_length, repeat_length, skipn_length, map_length in HH. unfold b. lia. }
    assert (SG : Forall (fun p => fst p = n) (firstn (b - a) (skipn a c))). { replace (b - a)%nat with (Z.to_nat k) by (unfold b; lia). assert (HH : map fst (firstn (Z.to_nat k) (skipn a c)) = repeat n (Z.to_nat k)). { rewrite <- firstn_map, map_fst_skip, <- W. rewrite firstn_app, repeat_length, Nat.sub_diag. cbn [firstn]. rewrite app_nil_r. apply firstn_all2. rewrite repeat_length. lia. } apply Forall_forall. intros p P. apply (in_map fst) in P. rewrite HH in P. apply repeat_spec in P. exact P. }
    assert (W' : expand l = skipn b (map fst c)). { unfold b. rewrite Nat.add_comm. assert (SS : forall (q : list Z) x y, skipn (x + y) q = skipn x (skipn y q)). { clear. intros q x y. revert q. induction y as [|y IHy]; intros q; [rewrite Nat.add_0_r; reflexivity|]. rewrite Nat.add_succ_r. destruct q; cbn [skipn]; [rewrite !skipn_nil; reflexivity|apply IHy]. } rewrite SS, <- W. rewrite skipn_app, repeat_length, Nat.sub_diag. rewrite skipn_all2 by (rewrite repeat_length; lia). reflexivity. }
    assert (KB : Z.of_nat (b - a) = k) by (unfold b; lia). assert (AB : Z.of_nat a * uc + k * uc = Z.of_nat b * uc) by (unfold b; nia). cbn [chunks]. cbv zeta. rewrite AB. destruct (Z.ltb_spec n 0) as [NG|NG].
    + apply IH; auto. { apply (skip_seg a b n); auto; lia. } { apply (pinv_skip uc a b n); auto; lia. }
    + assert (PN := proj2 PI n). rewrite (nth_rd pos _ 0) by (destruct PI; lia). cbn [bind]. destruct (put_seg a b n rp) as (rp' & E & R'); auto; try lia. rewrite pre_len, KB in E. rewrite PN by lia. replace (Z.of_nat (length (sel n (firstn a c))) * uc) with (uc * Z.of_nat (length (sel n (firstn a c)))) in E by lia. rewrite E. cbn [bind]. rewrite wr_ok by (destruct PI; lia). cbn [bind]. apply IH; auto. pose proof (pinv_seg uc a b n pos) as Q. rewrite PN, KB in Q by lia. replace (k * uc) with (uc * k) by lia. apply Q; auto; lia.
Qed.
(** sorted *)
Lemma flen {B} (f : B -> bool) l : (length (filter f l) <= length l)%nat. Proof. induction l as [|a l IH]; cbn [filter length]; [lia|]. destruct (f a); cbn [length]; lia. Qed.
Definition below (n : Z) (l : list (Z * list A)) : nat := length (filter (fun p => fst p <? n) l).
Lemma srt_ge : forall w prev, srt prev w = true -> Forall (fun n => prev <= n) w.
Proof. induction w as [|n w IH]; intros prev S; [constructor|]. cbn [srt] in S. apply andb_true_iff in S. destruct S as [S1 S2]. constructor; [lia|]. eapply Forall_impl; [|apply IH; eauto]. cbv beta. intros; lia. Qed.
Lemma sorted_sel n : forall l prev, srt prev (map fst l) = true -> filter (fun p => fst p =? n) l = firstn (length (filter (fun p : Z * list A => fst p =? n) l)) (skipn (below n l) l).
Proof.
  induction l as [|[m d] l IH]; intros prev S; [reflexivity|]. cbn [map srt fst] in S. apply andb_true_iff in S. destruct S as [S1 S2]. pose proof (srt_ge _ _ S2) as G. unfold below. cbn [filter fst]. destruct (Z.ltb_spec m n) as [LT|GE].
  - replace (m =? n) with false by lia. cbn [length skipn]. exact (IH m S2).
  - assert (B0 : filter (fun p : Z * list A => fst p <? n) l = []). { clear - G GE. induction l as [|p l IH]; [reflexivity|]. cbn [map] in G. inversion G; subst. cbn [filter]. replace (fst p <? n) with false by lia. auto. } rewrite B0. cbn [length skipn]. specialize (IH m S2). unfold below in IH. rewrite B0 in IH. cbn [length skipn] in IH. destruct (Z.eqb_spec m n) as [->|NE]; [cbn [length firstn]; f_equal; exact IH|].
    assert (E0 : filter (fun p : Z * list A => fst p =? n) l = []). { clear - G GE NE. induction l as [|p l IH]; [reflexivity|]. cbn [map] in G. inversion G; subst. cbn [filter]. replace (fst p =? n) with false by lia. auto. } rewrite E0. reflexivity.
Qed.
Lemma below_next n l : Z.of_nat (below (n + 1) l) = Z.of_nat (below n l) + Z.of_nat (length (sel n l)).
Proof. unfold below, sel. rewrite map_length. induction l as [|[m d] l IH]; [reflexivity|]. cbn [filter fst]. destruct (Z.ltb_spec m (n + 1)), (Z.ltb_spec m n), (Z.eqb_spec m n); cbn [length]; lia. Qed.
Lemma sorted_ok prev : srt prev (map fst c) = true -> forall m j, 0 <= j -> sorted_loop A junk (map (fun i => L (j + Z.of_nat i)) (seq 0 m)) X uc (Z.of_nat (below j c) * uc) = Ok (map (fun i => spec (j + Z.of_nat i)) (seq 0 m)).
Proof.
  intros S. induction m as [|m IH]; intros j J; [reflexivity|]. cbn [seq map]. rewrite <- seq_shift, !map_map. assert (E1 : map (fun x => L (j + Z.of_nat (Datatypes.S x))) (seq 0 m) = map (fun i => L ((j + 1) + Z.of_nat i)) (seq 0 m)) by (apply map_ext; intros i; f_equal; lia). assert (E2 : map (fun x => spec (j + Z.of_nat (Datatypes.S x))) (seq 0 m) = map (fun i => spec ((j + 1) + Z.of_nat i)) (seq 0 m)) by (apply map_ext; intros i; f_equal; lia). rewrite E1, E2. cbn [sorted_loop]. rewrite Z.add_0_r. specialize (IH (j + 1)). rewrite below_next in IH. fold (L j) in IH. destruct (Z.eqb_spec (L j) 0) as [Z0|NZ].
  - rewrite Z0, Z.add_0_r in IH. rewrite IH by lia. cbn [bind]. do 2 f_equal. unfold spec. rewrite Z0. unfold L in Z0. destruct (sel j c); [reflexivity|cbn in Z0; lia].
  - rewrite Z.mul_add_distr_r in IH. pose proof (sorted_sel j c prev S) as SS. set (b := below j c) in *. set (k := length (filter (fun p : Z * list A => fst p =? j) c)) in *. assert (LK : L j = Z.of_nat k) by (unfold L, sel, k; rewrite map_length; reflexivity).
    assert (KB : (k + b <= length c)%nat). { assert (HH := f_equal (@length _) SS). fold k in HH. rewrite firstn_length, skipn_length in HH. assert (BL : (b <= length c)%nat) by (unfold b, below; apply flen). destruct (Nat.eq_dec k 0); lia. }
    assert (FU := Forall_snd c CU). assert (XL : Z.of_nat (length X) = Z.of_nat (length c) * uc) by (unfold X; rewrite concat_len by auto; rewrite map_length; reflexivity).
    assert (Q1 : 0 <= Z.of_nat b * uc) by nia. assert (Q2 : 0 <= L j * uc) by nia. assert (Q3 : Z.of_nat b * uc + L j * uc <= Z.of_nat (length c) * uc) by (rewrite <- Z.mul_add_distr_r; apply Z.mul_le_mono_nonneg_r; lia).
    unfold blit. rewrite repeat_length. replace (_ && _ && _ && _ && _) with true by lia. cbn [bind]. rewrite IH by lia. cbn [bind]. do 2 f_equal. change (Z.to_nat 0) with O. cbn [firstn app]. rewrite (skipn_all2 (repeat junk _)) by (rewrite repeat_length; lia). rewrite app_nil_r. unfold spec. f_equal.
    unfold X. destruct (firstn_concat (map snd c) FU b) as [_ S1]; [rewrite map_length; lia|]. rewrite S1. assert (FS := Forall_skipn _ b _ FU). rewrite LK. destruct (firstn_concat _ FS k) as [S2 _]; [rewrite skipn_length, map_length; lia|]. rewrite S2. unfold sel. rewrite SS. rewrite skipn_map, firstn_map. reflexivity.
Qed.
End G.
