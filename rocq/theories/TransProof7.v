From Verif Require Import Base ListLib TransModel TransSpec TransProof TransProof2 TransProof3 TransProof4 TransProof5 TransProof6.
From Coq Require Import List Arith Lia Permutation.
Open Scope nat_scope.
Lemma in_combine_nth {B C} (a : list B) : forall (b : list C) u v, In (u, v) (combine a b) <-> exists i, nth_error a i = Some u /\ nth_error b i = Some v.
Proof.
  induction a as [|x a IH]; intros b u v.
  - split; [intros []|intros (i & E & _); destruct i; discriminate].
  - destruct b as [|y b]; [split; [intros []|intros (i & _ & E); destruct i; discriminate]|]. cbn [combine In]. rewrite IH. split.
    + intros [E|(i & E1 & E2)]; [exists 0; cbn; split; congruence|exists (S i); auto].
    + intros ([|i] & E1 & E2); cbn [nth_error] in *; [left; congruence|right; exists i; auto].
Qed.
Lemma filter_all {B} (f : B -> bool) l : (forall b, In b l -> f b = true) -> filter f l = l.
Proof. induction l as [|b l IH]; intros H; auto. cbn [filter]. rewrite (H b) by (left; auto). f_equal. apply IH. intros; apply H; right; auto. Qed.
(** the axes that stay at the end *)
Lemma axes_split w xr na : valid w xr -> na <= rank w xr -> Forall (fun a => a < na) w -> axes w xr = (w ++ filter (fun j => negb (isin j w)) (seq 0 na)) ++ seq na (rank w xr - na).
Proof.
  intros V NA F. unfold axes. rewrite <- app_assoc. f_equal. replace (rank w xr) with (na + (rank w xr - na)) at 1 by lia. rewrite seq_app, filter_app, Nat.add_0_l. f_equal. apply filter_all. intros b I. apply in_seq in I. destruct (isin b w) eqn:E; auto. apply isin_In in E. rewrite Forall_forall in F. specialize (F b E). lia.
Qed.
Lemma inb_nth sh I : inb sh I <-> length I = length sh /\ forall j, j < length sh -> nth j I 0 < nth j sh 0.
Proof.
  revert I. induction sh as [|l sh IH]; intros [|i I]; split; intros H; try (inversion H; subst; cbn in *; try lia; fail).
  - split; auto. cbn; intros; lia.
  - constructor.
  - inversion H; subst. match goal with H : Forall2 _ _ _ |- _ => apply IH in H; destruct H as [L N] end. split; [cbn [length]; lia|]. intros [|j] J; cbn [nth length] in *; auto. apply N. lia.
  - destruct H as [L N]. constructor; [apply (N 0); cbn; lia|]. apply IH. split; [cbn [length] in L; lia|]. intros j J. apply (N (S j)). cbn [length]; lia.
Qed.
Lemma map_nth_seq {B} (d : B) l : forall s (pre : list B), length pre = s -> map (fun j => nth j (pre ++ l) d) (seq s (length l)) = l.
Proof. induction l as [|b l IH]; intros s pre L; auto. cbn [length seq map]. f_equal. - rewrite app_nth2 by lia. replace (s - length pre) with 0 by lia. reflexivity. - rewrite <- (IH (S s) (pre ++ [b])) at 2 by (rewrite app_length; cbn; lia). apply map_ext. intros j. rewrite <- app_assoc. reflexivity. Qed.
Lemma nth_skipn' (n : nat) (l : list nat) : forall k, nth k (skipn n l) 0 = nth (n + k) l 0.
Proof. revert l. induction n as [|n IH]; intros [|a l] k; auto; cbn [skipn nth Nat.add]; [destruct k; auto|apply IH]. Qed.
Lemma comb_map (l : list nat) (g : nat -> nat) : forall s pre, length pre = s -> combine l (map g (seq s (length l))) = map (fun j => (nth j (pre ++ l) 0, g j)) (seq s (length l)).
Proof. induction l as [|b l IH]; intros s pre L; auto. cbn [length seq map combine]. f_equal. - rewrite app_nth2 by lia. replace (s - length pre) with 0 by lia. reflexivity. - rewrite (IH (S s) (pre ++ [b])) by (rewrite app_length; cbn; lia). apply map_ext. intros j. rewrite <- app_assoc. reflexivity. Qed.
Section M.
Context {A : Type}.
Variables (w xsh rsh : list nat) (x : list A).
Let xr := length xsh.
Let p := axes w xr.
Hypothesis V : valid w xr.
Hypothesis PL : plan w xsh rsh.
Lemma plen : length p = xr. Proof. apply axes_len, V. Qed.
Lemma index_in I : inb rsh I -> inb xsh (map (fun a => nth a I 0) p).
Proof.
  intros H. apply inb_nth. rewrite map_length. split; [apply plen|]. intros i IB. apply inb_nth in H. destruct H as [LI N]. destruct PL as [L1 L2]. fold xr p in L1, L2. assert (EI : nth_error p i = Some (nth i p 0)) by (apply nth_error_nth'; rewrite plen; exact IB). assert (AB : nth i p 0 < length rsh). { rewrite L1. unfold p, axes in *. apply nth_error_In in EI. apply in_app_or in EI. destruct EI as [EI|EI]; [destruct V as [_ FV]; rewrite Forall_forall in FV; apply FV; auto|apply filter_In in EI; destruct EI as [EI _]; apply in_seq in EI; lia]. }
  specialize (N _ AB). destruct (L2 _ AB) as (m & EM & _ & MIN). rewrite (nth_error_nth _ _ _ EM) in N. assert (m <= nth i xsh 0). { apply MIN. apply in_combine_nth. exists i. split; auto. apply nth_error_nth'. auto. } rewrite (nth_indep _ 0 (nth 0 I 0)) by (rewrite map_length, plen; auto). rewrite (map_nth (fun a => nth a I 0)). lia.
Qed.
Lemma axis_lt i j : nth_error p i = Some j -> j < length rsh.
Proof. intros EI. rewrite (p_len _ _ _ PL). fold xr. unfold p, axes in *. apply nth_error_In in EI. apply in_app_or in EI. destruct EI as [EI|EI]; [destruct V as [_ FV]; rewrite Forall_forall in FV; apply FV; auto|apply filter_In in EI; destruct EI as [EI _]; apply in_seq in EI; lia]. Qed.
Lemma empty_ok : shProd xsh = 0 -> shProd rsh = 0.
Proof.
  intros Z. destruct (Nat.eq_0_gt_0_cases (shProd rsh)) as [|G]; auto. exfalso. destruct (ravel_surj rsh 0 G) as (I & IB & _). apply index_in in IB. apply inb_pos in IB. lia.
Qed.
(** the conclusion from a list of elements moved the right way *)
Lemma finish r : length r = shProd rsh -> (forall I, inb rsh I -> nth_error r (ravel rsh I) = nth_error x (ravel xsh (map (fun a => nth a I 0) p))) -> reordered w xsh x rsh r.
Proof.
  intros LR E. unfold reordered. fold xr p. split; [apply (p_len _ _ _ PL)|]. split; [exact LR|]. split; [|exact E]. intros j J. destruct (p_min _ _ _ PL j J) as (m & EM & IN & MIN). fold xr p in IN, MIN. split.
  - apply in_combine_nth in IN. destruct IN as (i & E1 & E2). exists i. split; auto. congruence.
  - intros i l m' E1 E2 E3. rewrite EM in E3. injection E3 as <-. apply MIN. apply in_combine_nth. exists i. auto.
Qed.
Variables (na dup : nat).
Hypothesis NA : na <= rank w xr.
Hypothesis FW : Forall (fun a => a < na) w.
Hypothesis DUP : length (nodup Nat.eq_dec w) + dup = length w.
Let p1 := w ++ filter (fun j => negb (isin j w)) (seq 0 na).
Let xsh1 := firstn (na + dup) xsh.
Let xsh2 := skipn (na + dup) xsh.
Let rsh1 := firstn na rsh.
Let csz := shProd xsh2.
Lemma p1_len : length p1 = na + dup.
Proof. unfold p1. rewrite app_length, filter_notin_len by exact FW. pose proof (nodup_incl_le := nodup_len_le w). assert (length (nodup Nat.eq_dec w) <= na). { rewrite <- (filter_in_len w na FW). rewrite <- (seq_length na 0) at 2. rewrite <- (filter_split (fun j => isin j w) (seq 0 na)). lia. } lia. Qed.
Lemma nadup : na + dup <= xr.
Proof. destruct V as [L _]. unfold rank in NA. lia. Qed.
Lemma xsh_split : xsh = xsh1 ++ xsh2. Proof. symmetry. apply firstn_skipn. Qed.
Lemma xsh1_len : length xsh1 = na + dup. Proof. unfold xsh1. rewrite firstn_length. pose proof nadup. fold xr. lia. Qed.
Lemma xsh2_len : length xsh2 = rank w xr - na. Proof. unfold xsh2. rewrite skipn_length. fold xr. pose proof nadup. destruct V as [L _]. unfold rank. lia. Qed.
Lemma p_split : p = p1 ++ seq na (rank w xr - na). Proof. apply axes_split; auto. Qed.
Lemma comb_split : combine p xsh = combine p1 xsh1 ++ combine (seq na (rank w xr - na)) xsh2.
Proof. rewrite p_split. rewrite xsh_split at 1. apply combine_app'. rewrite p1_len, xsh1_len. auto. Qed.
Lemma p1_lt : Forall (fun a => a < na) p1.
Proof. unfold p1. apply Forall_app. split; auto. apply Forall_forall. intros j I. apply filter_In in I. destruct I as [I _]. apply in_seq in I. lia. Qed.
Lemma rsh_split : rsh = rsh1 ++ xsh2.
Proof.
  rewrite <- (firstn_skipn na rsh) at 1. f_equal. pose proof (p_len _ _ _ PL) as LR. fold xr in LR. apply nth_ext with (d := 0) (d' := 0); [rewrite skipn_length, xsh2_len; lia|]. intros k KB. rewrite skipn_length in KB. rewrite nth_skipn'. destruct (p_min _ _ _ PL (na + k) ltac:(lia)) as (m & EM & IN & _). rewrite (nth_error_nth _ _ _ EM). fold xr p in IN. rewrite comb_split in IN. apply in_app_or in IN. destruct IN as [IN|IN].
  - apply in_combine_l in IN. pose proof p1_lt as H. rewrite Forall_forall in H. specialize (H _ IN). lia.
  - apply in_combine_nth in IN. destruct IN as (i & E1 & E2). assert (i < rank w xr - na) by (rewrite <- (seq_length (rank w xr - na) na); apply nth_error_Some; congruence). rewrite nth_error_nth' with (d := 0) in E1 by (rewrite seq_length; auto). rewrite seq_nth in E1 by auto. injection E1 as E1. assert (i = k) by lia. subst i. symmetry. apply nth_error_nth. auto.
Qed.
Lemma rsh1_len : length rsh1 = na. Proof. unfold rsh1. rewrite firstn_length, (p_len _ _ _ PL). fold xr. lia. Qed.
Let L := combine p1 xsh1.
Let st := map (fun j => stride j (rev L) csz) (seq 0 na).
Lemma L_lt : Forall (fun a => fst a < na) (rev L).
Proof. apply Forall_rev. apply Forall_forall. intros [a b] I. apply in_combine_l in I. pose proof p1_lt as H. rewrite Forall_forall in H. apply H. auto. Qed.
Lemma map_fst_comb {B C} (a : list B) : forall (b : list C), length a = length b -> map fst (combine a b) = a.
Proof. induction a as [|u a IH]; intros [|v b] E; cbn in *; try lia; auto. f_equal. apply IH. lia. Qed.
Lemma map_snd_comb {B C} (a : list B) : forall (b : list C), length a = length b -> map snd (combine a b) = b.
Proof. induction a as [|u a IH]; intros [|v b] E; cbn in *; try lia; auto. f_equal. apply IH. lia. Qed.
Lemma index_ok I : inb rsh I -> F csz (rev (combine rsh1 st)) (ravel rsh I) = ravel xsh (map (fun a => nth a I 0) p).
Proof.
  intros H. pose proof (inb_len _ _ H) as LI. assert (LR : length rsh = rank w xr) by apply (p_len _ _ _ PL). pose proof (inb_pos _ _ H) as PR. rewrite rsh_split in H at 1. destruct (Forall2_app_inv_l _ _ H) as (I1 & I2 & H1 & H2 & EI). fold (inb rsh1 I1) in H1. fold (inb xsh2 I2) in H2. pose proof (inb_len _ _ H1) as LI1. pose proof (inb_len _ _ H2) as LI2. rewrite rsh1_len in LI1. rewrite xsh2_len in LI2.
  rewrite rsh_split at 1. rewrite EI at 1. rewrite ravel_app by (rewrite rsh1_len; auto). pose proof (ravel_lt _ _ H2) as R2. fold csz in R2 |- *. unfold F. rewrite Nat.div_add_l by lia. rewrite (Nat.div_small (ravel xsh2 I2)), Nat.add_0_r by auto. rewrite (Nat.add_comm (_ * csz)), Nat.mod_add, Nat.mod_small by lia. change (offr (rev (combine rsh1 st)) (ravel rsh1 I1)) with (offi (combine rsh1 st) (ravel rsh1 I1)). rewrite offi_dot by (auto; unfold st; rewrite map_length, seq_length, rsh1_len; auto). unfold st. rewrite <- LI1. rewrite dot_stride by (rewrite LI1; apply L_lt). rewrite <- ravr_ravel. unfold L. rewrite map_fst_comb, map_snd_comb by (rewrite p1_len, xsh1_len; auto).
  rewrite p_split, map_app. rewrite xsh_split at 1. rewrite ravel_app by (rewrite map_length, p1_len, xsh1_len; auto). fold csz. assert (E1 : map (fun a => nth a I 0) p1 = map (fun a => nth a I1 0) p1). { apply map_ext_in. intros a IA. pose proof p1_lt as H0. rewrite Forall_forall in H0. specialize (H0 _ IA). rewrite EI, app_nth1 by lia. auto. } assert (E2 : map (fun a => nth a I 0) (seq na (rank w xr - na)) = I2). { rewrite EI, <- LI2. apply map_nth_seq. auto. } rewrite E1, E2. lia.
Qed.
Hypothesis AX : length x = shProd xsh.
Hypothesis NE : shProd xsh <> 0.
Lemma pos_all : forall sh, shProd sh <> 0 -> Forall (fun l => 0 < l) sh.
Proof. induction sh as [|l sh IH]; intros H; constructor; rewrite shProd_cons in H; [nia|apply IH; nia]. Qed.
Lemma rsh_pos : Forall (fun l => 0 < l) rsh.
Proof.
  apply Forall_forall. intros l I. apply In_nth_error in I. destruct I as (j & EJ). assert (J : j < length rsh) by (apply nth_error_Some; congruence). destruct (p_min _ _ _ PL j J) as (m & EM & IN & _). rewrite EJ in EM. injection EM as <-. apply in_combine_r in IN. pose proof (pos_all _ NE) as H. rewrite Forall_forall in H. auto.
Qed.
Lemma csz_pos : 0 < csz. Proof. unfold csz. pose proof NE as H. rewrite xsh_split, shProd_app in H. nia. Qed.
Lemma fbound : forall n, n < shProd rsh -> F csz (rev (combine rsh1 st)) n < length x.
Proof. intros n N. destruct (ravel_surj rsh n N) as (I & IB & <-). rewrite index_ok by auto. rewrite AX. apply ravel_lt. apply index_in. auto. Qed.
Lemma body_ok lw isB csz' ax : simplify (rev (combine rsh1 st)) csz csz [] = (csz', ax) -> exists r, match ax with [] => (if csz' <=? length x then Ok (firstn csz' x) else UB) | _ => move lw isB csz' ax x end = Ok r /\ reordered w xsh x rsh r.
Proof.
  intros ES. assert (LST : length st = na) by (unfold st; rewrite map_length, seq_length; auto). pose proof rsh_pos as RP. assert (R1P : Forall (fun l => 0 < l) rsh1) by (rewrite rsh_split in RP; apply Forall_app in RP; tauto).
  destruct (simplify_F _ _ _ _ _ _ csz_pos (Forall_rev (pos_combine rsh1 st R1P)) (Forall_nil _) eq_refl ES) as (C' & PA' & SZ & EF). cbn [rev app] in EF. change (P []) with 1 in SZ. rewrite P_rev, P_combine, Nat.mul_1_r in SZ by (rewrite LST, rsh1_len; auto). assert (SR : csz' * P ax = shProd rsh) by (rewrite rsh_split, shProd_app; fold csz; lia).
  assert (FIN : forall r, moved x (F csz' (rev ax)) (csz' * P ax) r -> reordered w xsh x rsh r). { intros r [LR N]. apply finish; [lia|]. intros I IB. rewrite N by (rewrite SR; apply ravel_lt; auto). rewrite EF, index_ok by auto. reflexivity. }
  assert (FB : forall n, n < csz' * P ax -> F csz' (rev ax) n < length x). { intros n N. rewrite EF. apply fbound. lia. }
  destruct ax as [|a ax].
  - change (P []) with 1 in *. assert (CL : csz' <= length x). { specialize (FB (csz' - 1) ltac:(lia)). unfold F in FB. cbn [rev offr] in FB. rewrite Nat.mod_small in FB by lia. lia. } replace (csz' <=? length x) with true by (symmetry; apply Nat.leb_le; auto). exists (firstn csz' x). split; auto. apply FIN. split; [rewrite firstn_length; lia|]. intros n N. unfold F. cbn [rev offr]. rewrite Nat.mod_small by lia. rewrite Nat.add_0_r. rewrite nth_error_firstn_lt by lia. auto.
  - destruct (move_ok x csz' (a :: ax) C' PA') with (lw := lw) (isB := isB) as (l & E & M); [discriminate|exact FB| |exists l; split; auto].
    assert (ES' : simplify (map (fun j => (nth j rsh1 0, stride j (rev L) csz)) (rev (seq 0 na))) csz csz [] = (csz', a :: ax)). { rewrite <- ES. f_equal. rewrite map_rev. f_equal. unfold st. pose proof (comb_map rsh1 (fun j => stride j (rev L) csz) 0 [] eq_refl) as E0. rewrite rsh1_len in E0. cbn [app] in E0. auto. }
    refine (simplify_dv (fun j => nth j rsh1 0) (fun j => stride j (rev L) csz) (rev (seq 0 na)) _ csz (rev L) csz' (a :: ax) csz_pos _ _ ES'); [apply NoDup_rev, seq_NoDup| |].
    + apply Forall_rev. apply Forall_forall. intros [j l] IL. cbn [fst snd]. assert (JN : j < na) by (apply in_combine_l in IL; pose proof p1_lt as H; rewrite Forall_forall in H; apply H; auto). assert (IC : In (j, l) (combine p xsh)) by (rewrite comb_split; apply in_or_app; auto). pose proof (p_len _ _ _ PL) as LR. fold xr in LR. destruct (p_min _ _ _ PL j ltac:(lia)) as (m & EM & IN & MIN). fold xr p in IN, MIN. specialize (MIN _ IC). assert (EN : nth j rsh1 0 = m). { rewrite rsh_split in EM. rewrite nth_error_app1 in EM by (rewrite rsh1_len; auto). apply nth_error_nth. auto. } rewrite EN. assert (0 < m) by (apply nth_error_In in EM; rewrite Forall_forall in RP; apply RP; auto). lia.
    + intros j IJ _. split; auto. apply in_rev in IJ. apply in_seq in IJ. rewrite <- in_rev. pose proof (p_len _ _ _ PL) as LR. fold xr in LR. destruct (p_min _ _ _ PL j ltac:(lia)) as (m & EM & IN & MIN). fold xr p in IN. assert (EN : nth j rsh1 0 = m). { rewrite rsh_split in EM. rewrite nth_error_app1 in EM by (rewrite rsh1_len; lia). apply nth_error_nth. auto. } rewrite EN. rewrite comb_split in IN. apply in_app_or in IN. destruct IN as [IN|IN]; auto. apply in_combine_l in IN. apply in_seq in IN. lia.
Qed.
End M.
