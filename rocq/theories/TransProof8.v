From Verif Require Import Base ListLib TransModel TransSpec TransProof TransProof2 TransProof3 TransProof4 TransProof5 TransProof6 TransProof7.
From Coq Require Import List Arith Lia Permutation.
Open Scope nat_scope.
Lemma map_nth_all (I : list nat) : map (fun a => nth a I 0) (seq 0 (length I)) = I.
Proof. apply (map_nth_seq 0 I 0 []). auto. Qed.
Lemma ident {A} w xsh (x : list A) : length x = shProd xsh -> axes w (length xsh) = seq 0 (length xsh) -> rank w (length xsh) = length xsh -> reordered w xsh x xsh x.
Proof.
  intros AX E R. unfold reordered. rewrite E, R. split; auto. split; [exact AX|]. split.
  - intros j J. split.
    + exists j. split; auto. rewrite nth_error_nth' with (d := 0) by (rewrite seq_length; auto). rewrite seq_nth; auto.
    + intros i l m E1 E2 E3. assert (i < length xsh) by (apply nth_error_Some; congruence). rewrite nth_error_nth' with (d := 0) in E1 by (rewrite seq_length; auto). rewrite seq_nth in E1 by auto. injection E1 as <-. cbn in E3. rewrite E2 in E3. injection E3 as ->. auto.
  - intros I IB. rewrite <- (inb_len _ _ IB), map_nth_all. auto.
Qed.
Lemma seq_valid k xr : k <= xr -> rank (seq 0 k) xr = xr /\ axes (seq 0 k) xr = seq 0 xr /\ valid (seq 0 k) xr.
Proof.
  intros K. assert (R : rank (seq 0 k) xr = xr) by (unfold rank; rewrite nodup_fixed_point, seq_length by apply seq_NoDup; lia). assert (VA : valid (seq 0 k) xr). { split; [rewrite seq_length; auto|]. rewrite R. apply Forall_forall. intros a I. apply in_seq in I. lia. } split; auto. split; auto.
  rewrite (axes_split _ _ k VA) by (try rewrite R; auto; apply Forall_forall; intros a I; apply in_seq in I; lia). rewrite R. assert (N : filter (fun j => negb (isin j (seq 0 k))) (seq 0 k) = []). { apply length_zero_iff_nil. rewrite filter_notin_len by (apply Forall_forall; intros a I; apply in_seq in I; lia). rewrite nodup_fixed_point, seq_length by apply seq_NoDup. lia. } rewrite N, app_nil_r. replace xr with (k + (xr - k)) at 2 by lia. rewrite seq_app. auto.
Qed.
Lemma strides_eq ax c n : Forall (fun a => fst a < n) ax -> strides ax c (repeat 0 n) = Ok (map (fun j => stride j ax c) (seq 0 n)).
Proof.
  intros H. destruct (strides_ok ax c (repeat 0 n)) as (st & E & L & N); [rewrite repeat_length; auto|]. rewrite E. f_equal. rewrite repeat_length in *. apply nth_ext with (d := 0) (d' := 0); [rewrite map_length, seq_length; auto|]. intros j J. rewrite L in J. rewrite N by auto. rewrite nth_repeat. rewrite (nth_indep _ 0 (stride 0 ax c)) by (rewrite map_length, seq_length; auto). rewrite (map_nth (fun j => stride j ax c)). rewrite seq_nth by auto. auto.
Qed.
Lemma reorder_ok {A} lw isB w xsh (x : list A) : length x = shProd xsh -> valid w (length xsh) -> exists rsh r, reorder lw isB w xsh x = Ok (rsh, r) /\ reordered w xsh x rsh r.
Proof.
  intros AX V. pose proof V as [LW FW]. unfold reorder. destruct (Nat.eqb_spec (length w) 0) as [W0|W0].
  { exists xsh, x. split; auto. destruct w; [|discriminate]. destruct (seq_valid 0 (length xsh) ltac:(lia)) as (R & E & _). apply ident; auto. }
  replace (length xsh <? length w) with false by (symmetry; apply Nat.ltb_ge; auto). assert (FB : forallb (fun a => a <? length xsh) w = true). { apply forallb_forall. intros a I. apply Nat.ltb_lt. pose proof (valid_lt _ _ V) as H. rewrite Forall_forall in H. auto. } rewrite FB. cbn [negb].
  destruct (plan_ok w xsh) as (rsh0 & dup & mx & id & q & rsh & EG & ID & RR & DX & MX & MI & FM & EM & AXE & PL & DUP); auto; [intros ->; apply W0; auto|]. rewrite EG. cbn [bind]. destruct (Nat.eqb_spec id (length w)) as [EI|EI].
  { exists xsh, x. split; auto. destruct (seq_valid (length w) (length xsh) LW) as (R & E & _). rewrite <- (ID EI) in R, E. apply ident; auto. }
  replace (length xsh - dup <=? mx) with false by (symmetry; apply Nat.leb_gt; lia). rewrite <- RR, EM. cbn [bind]. destruct (Nat.eqb_spec (length x) 0) as [X0|X0].
  { exists rsh, []. split; auto. apply finish; auto; [|intros I IB; exfalso; apply (index_in w xsh rsh V PL) in IB; apply inb_pos in IB; lia]. cbn [length]. symmetry. apply (empty_ok w xsh rsh V PL). lia. }
  assert (FW' : Forall (fun a => a < mx + 1) w) by (eapply Forall_impl; [|exact FM]; cbn beta; lia). rewrite AXE.
  assert (EC : firstn (mx + 1 + dup) (combine (axes w (length xsh)) xsh) = combine (w ++ filter (fun j => negb (isin j w)) (seq 0 (mx + 1))) (firstn (mx + 1 + dup) xsh)). { rewrite (comb_split w xsh V (mx + 1) dup) by (auto; lia). rewrite firstn_app, firstn_all2, combine_length, (p1_len w xsh (mx + 1) dup), (xsh1_len w xsh V (mx + 1) dup) by (auto; try lia; rewrite combine_length, (p1_len w xsh (mx + 1) dup), (xsh1_len w xsh V (mx + 1) dup) by (auto; lia); lia). replace (mx + 1 + dup - _) with 0 by lia. cbn [firstn]. apply app_nil_r. }
  rewrite EC. rewrite strides_eq by (apply (L_lt w xsh (mx + 1) dup ltac:(lia) FW' DUP)). cbn [bind]. destruct (simplify _ _ _ _) as [csz' ax] eqn:ES. destruct (body_ok w xsh rsh x V PL (mx + 1) dup ltac:(lia) FW' DUP AX ltac:(lia) lw isB csz' ax ES) as (r & E & OK). rewrite E. cbn [bind]. eauto.
Qed.
Lemma given_cnt w xsh : length w <= length xsh -> Forall (fun a => a < length xsh) w -> exists rsh0 dup mx id, given w xsh 0 (repeat None (length xsh)) 0 0 0 = Ok (rsh0, dup, mx, id) /\ (id = length w -> w = seq 0 (length w)) /\ Forall (fun a => a <= mx) w /\ length (nodup Nat.eq_dec w) + dup = length w.
Proof.
  intros LW FX. set (xr := length xsh) in *. destruct (given_ok w xsh 0 (repeat None xr) 0 0 0 LW) as (rsh0 & dup & mx & id & EG & LR & VR & D & M1 & M2 & M3 & I1 & I2); [rewrite repeat_length; auto|]. rewrite repeat_length in LR.
  assert (VR' : forall j, j < xr -> nth_error rsh0 j = Some (fold_left (upd1 j) (combine w xsh) None)). { intros j JB. apply VR. apply nth_error_repeat. auto. } clear VR.
  assert (NONE : forall j, j < xr -> (nth_error rsh0 j = Some None <-> ~ In j w)). { intros j JB. rewrite VR' by auto. pose proof (fold_upd1 j (combine w xsh) None) as H. assert (MF : map fst (combine w xsh) = w). { clear - LW. subst xr. revert LW. generalize xsh. induction w as [|a w IH]; intros [|b xs] L; cbn in *; try lia; auto. f_equal. apply IH. lia. } rewrite MF in H. destruct (fold_left (upd1 j) (combine w xsh) None) as [m|]; [|split; [tauto|reflexivity]]. split; [discriminate|]. intros NI. exfalso. apply NI. destruct H as [[H|H] _]; [discriminate|]. rewrite <- MF. apply (in_map fst) in H. exact H. }
  assert (S0 : somes (repeat None xr) = 0) by (unfold somes; generalize xr as k; induction k; auto). rewrite S0 in D. assert (SM : somes rsh0 = length (nodup Nat.eq_dec w)). { rewrite (somes_count rsh0 0), LR. rewrite <- (filter_in_len w xr) by auto. f_equal. apply filter_ext_in. intros k I. apply in_seq in I. rewrite Nat.sub_0_r. destruct (isin k w) eqn:EI. - apply isin_In in EI. specialize (NONE k ltac:(lia)). destruct (nth_error rsh0 k) as [[l|]|] eqn:EK; auto; [tauto|apply nth_error_None in EK; lia]. - assert (NI : ~ In k w) by (rewrite <- isin_In; congruence). apply NONE in NI; [rewrite NI; auto|lia]. }
  exists rsh0, dup, mx, id. repeat split; auto. lia.
Qed.
Lemma reorder_err {A} lw isB w xsh (x : list A) : ~ valid w (length xsh) -> reorder lw isB w xsh x = Err.
Proof.
  intros NV. unfold reorder. destruct (Nat.eqb_spec (length w) 0) as [W0|W0]; [exfalso; apply NV; destruct w; [split; [cbn; lia|constructor]|discriminate]|]. destruct (Nat.ltb_spec (length xsh) (length w)) as [LW|LW]; auto. destruct (forallb (fun a => a <? length xsh) w) eqn:FB; auto. cbn [negb]. assert (FX : Forall (fun a => a < length xsh) w) by (apply Forall_forall; intros a I; rewrite forallb_forall in FB; apply Nat.ltb_lt; auto).
  destruct (given_cnt w xsh LW FX) as (rsh0 & dup & mx & id & EG & ID & FM & DUP). rewrite EG. cbn [bind]. destruct (Nat.eqb_spec id (length w)) as [EI|EI]; [exfalso; apply NV; rewrite (ID EI); apply seq_valid; auto|]. destruct (Nat.leb_spec (length xsh - dup) mx) as [|G]; auto. exfalso. apply NV. split; auto. eapply Forall_impl; [|exact FM]. cbn beta. intros a H. unfold rank. lia.
Qed.
(** a reordered array is determined *)
Lemma elts_eq {A} sh (r r' : list A) : length r = shProd sh -> length r' = shProd sh -> (forall I, inb sh I -> elt sh r I = elt sh r' I) -> r = r'.
Proof. intros L1 L2 H. apply nth_error_ext. intros n. destruct (Nat.lt_ge_cases n (shProd sh)) as [N|N]; [destruct (ravel_surj sh n N) as (I & IB & <-); apply (H I IB)|]. rewrite !(proj2 (nth_error_None _ _)) by lia. auto. Qed.
Lemma reordered_fun {A} w xsh (x : list A) s r s' r' : reordered w xsh x s r -> reordered w xsh x s' r' -> s = s' /\ r = r'.
Proof.
  intros (L & AR & M & E) (L' & AR' & M' & E'). assert (ES : s = s'). { apply nth_error_ext. intros j. destruct (Nat.lt_ge_cases j (length s)) as [J|J]; [|rewrite !(proj2 (nth_error_None _ _)) by lia; auto]. destruct (M j J) as ((i & E1 & E2) & B). destruct (M' j ltac:(lia)) as ((i' & E1' & E2') & B'). destruct (nth_error s j) as [m|] eqn:S1; [|apply nth_error_None in S1; lia]. destruct (nth_error s' j) as [m'|] eqn:S2; [|apply nth_error_None in S2; lia]. f_equal. pose proof (B _ _ _ E1' E2' eq_refl). pose proof (B' _ _ _ E1 E2 eq_refl). lia. } subst s'. split; auto. apply (elts_eq s); auto. intros I IB. rewrite E, E' by auto. auto.
Qed.
(** ** Transpose *)
Lemma inb_snoc sh h I : inb (sh ++ [h]) I -> exists J i, I = J ++ [i] /\ inb sh J /\ i < h.
Proof. intros H. destruct (Forall2_app_inv_l _ _ H) as (J & K & H1 & H2 & ->). inversion H2 as [|a i l k Hi Hn]; subst. inversion Hn; subst. exists J, i. auto. Qed.
Lemma inb_snoc' sh h J i : inb sh J -> i < h -> inb (sh ++ [h]) (J ++ [i]).
Proof. intros H1 H2. apply Forall2_app; auto. Qed.
Lemma transposed_fun {A} xsh (x : list A) s r s' r' : transposed xsh x s r -> transposed xsh x s' r' -> s = s' /\ r = r'.
Proof.
  destruct xsh as [|h tl]; cbn [transposed]; [intros [-> ->] [-> ->]; auto|]. intros (-> & AR & E) (-> & AR' & E'). split; auto. apply (elts_eq (tl ++ [h])); auto. intros I IB. apply inb_snoc in IB. destruct IB as (J & i & -> & HJ & HI). rewrite E, E' by (constructor; auto). auto.
Qed.
Lemma transposed_inj {A} xsh (x : list A) xsh' x' s r : array xsh x -> array xsh' x' -> transposed xsh x s r -> transposed xsh' x' s r -> xsh = xsh' /\ x = x'.
Proof.
  intros AX AX'. destruct xsh as [|h tl], xsh' as [|h' tl']; cbn [transposed].
  - intros [-> ->] [_ ->]. auto.
  - intros [-> ->] [E _]. destruct tl'; discriminate.
  - intros [-> _] [E _]. destruct tl; discriminate.
  - intros (-> & AR & E) (ES & AR' & E'). apply app_inj_tail in ES. destruct ES as [<- <-]. split; auto. apply (elts_eq (h :: tl)); auto. intros I IB. inversion IB as [|a i l J Hi HJ]; subst. rewrite <- E, <- E' by (constructor; auto). auto.
Qed.
Lemma ravel_snoc sh h J i : inb sh J -> ravel (sh ++ [h]) (J ++ [i]) = ravel sh J * h + i.
Proof. intros H. rewrite ravel_app by (apply inb_len; auto). cbn. lia. Qed.
Lemma transp_ok {A} xsh (x : list A) : array xsh x -> exists rsh r, transp_c1 xsh x = Ok (rsh, r) /\ transposed xsh x rsh r.
Proof.
  unfold array. rewrite size_eq. intros AX. destruct xsh as [|h [|h' tl]]; cbn [transp_c1].
  - exists [], x. split; auto. cbn. auto.
  - exists [h], x. split; auto. cbn [transposed app]. split; auto. split; [exact AX|]. intros i I H. inversion H as [|a b l J Hi HJ]; subst. inversion HJ; subst. cbn [app]. auto.
  - set (t := h' :: tl) in *. rewrite shProd_cons in AX. assert (AS : shProd (t ++ [h]) = h * shProd t) by (rewrite shProd_app; cbn; lia). destruct ((length x =? 0) || (h =? 1) || (h =? length x)) eqn:C.
    + exists (t ++ [h]), x. split; auto. cbn [transposed]. split; auto. split; [unfold array; rewrite size_eq; lia|]. intros i I H. inversion H as [|a b l J Hi HJ]; subst. unfold elt. rewrite ravel_snoc by exact HJ. cbn [ravel]. rewrite size_eq. pose proof (ravel_lt _ _ HJ) as RL. f_equal. apply orb_true_iff in C. destruct C as [C|C]; [apply orb_true_iff in C; destruct C as [C|C]|]; apply Nat.eqb_eq in C.
      * assert (0 < h * shProd t) by (apply Nat.mul_pos_pos; lia). lia.
      * subst h. assert (i = 0) by lia. subst i. lia.
      * assert (T1 : shProd t = 1) by (apply (Nat.mul_cancel_l _ _ h); lia). rewrite T1 in *. assert (ravel t I = 0) by lia. lia.
    + apply orb_false_iff in C. destruct C as [C _]. apply orb_false_iff in C. destruct C as [C _]. apply Nat.eqb_neq in C. destruct (noshape_ok x (shProd t) h) as (r & E & LR & N); [destruct h; [cbn in AX; lia|lia]|lia|]. rewrite E. cbn [bind]. exists (t ++ [h]), r. split; auto. cbn [transposed]. split; auto. split; [unfold array; rewrite size_eq; lia|]. intros i I H. inversion H as [|a b l J Hi HJ]; subst. unfold elt. rewrite ravel_snoc by exact HJ. cbn [ravel]. rewrite size_eq. pose proof (ravel_lt _ _ HJ) as RL. rewrite N by nia. f_equal. rewrite (Nat.div_add_l (ravel t I) h i), (Nat.div_small i), Nat.add_0_r by lia. rewrite (Nat.add_comm (ravel t I * h)), Nat.mod_add, Nat.mod_small by lia. auto.
Qed.
Lemma transp_im_ok {A} xsh (x : list A) : array xsh x -> exists rsh r, transp_im xsh x = Ok (rsh, r) /\ array rsh r /\ transposed rsh r xsh x.
Proof.
  unfold array. rewrite size_eq. intros AX. unfold transp_im. destruct (Nat.leb_spec (length xsh) 1) as [L1|L1].
  - exists xsh, x. split; auto. split; auto. destruct xsh as [|h [|h' tl]]; [cbn; auto| |cbn in L1; lia]. cbn [transposed app]. split; auto. split; [exact AX|]. intros i I H. inversion H as [|a b l J Hi HJ]; subst. inversion HJ; subst. cbn [app]. auto.
  - assert (NE : xsh <> []) by (intros ->; cbn in L1; lia). destruct (exists_last NE) as (hd & w & ->). rewrite last_last, removelast_last. assert (AS : length x = w * shProd hd) by (rewrite AX, shProd_app; cbn; lia). assert (AR : forall r : list A, length r = w * shProd hd -> length r = size (w :: hd)) by (intros r E; exact E). destruct ((length x =? 0) || (w =? 1) || (w =? length x)) eqn:C.
    + exists (w :: hd), x. split; auto. split; [auto|]. cbn [transposed]. split; auto. split; [exact AX|]. intros i I H. inversion H as [|a b l J Hi HJ]; subst. unfold elt. rewrite ravel_snoc by exact HJ. cbn [ravel]. rewrite size_eq. pose proof (ravel_lt _ _ HJ) as RL. f_equal. apply orb_true_iff in C. destruct C as [C|C]; [apply orb_true_iff in C; destruct C as [C|C]|]; apply Nat.eqb_eq in C.
      * assert (0 < w * shProd hd) by (apply Nat.mul_pos_pos; lia). lia.
      * subst w. assert (i = 0) by lia. subst i. lia.
      * assert (T1 : shProd hd = 1) by (apply (Nat.mul_cancel_l _ _ w); lia). rewrite T1 in *. assert (ravel hd I = 0) by lia. lia.
    + apply orb_false_iff in C. destruct C as [C _]. apply orb_false_iff in C. destruct C as [C _]. apply Nat.eqb_neq in C. assert (HP : 0 < shProd hd) by nia. destruct (noshape_ok x w (shProd hd)) as (r & E & LR & N); [auto|auto|]. rewrite E. cbn [bind]. exists (w :: hd), r. split; auto. split; [auto|]. cbn [transposed]. split; auto. split; [exact AX|]. intros i I H. inversion H as [|a b l J Hi HJ]; subst. unfold elt. rewrite ravel_snoc by exact HJ. cbn [ravel]. rewrite size_eq. pose proof (ravel_lt _ _ HJ) as RL. rewrite N by nia. f_equal. rewrite (Nat.div_add_l i), (Nat.div_small (ravel hd I)), Nat.add_0_r by lia. rewrite (Nat.add_comm (i * shProd hd)), Nat.mod_add, Nat.mod_small by lia. auto.
Qed.
