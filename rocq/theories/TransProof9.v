From Verif Require Import Base ListLib TransModel TransSpec TransProof TransProof5 TransProof6 TransProof7 TransProof8.
From Coq Require Import List Arith Lia Permutation.
Open Scope nat_scope.
(** * permutations of axes and their inverses *)
Definition invp (n : nat) (p q : list nat) : Prop := length p = n /\ length q = n /\ (forall i, i < n -> nth i p 0 < n /\ nth (nth i p 0) q 0 = i) /\ (forall j, j < n -> nth j q 0 < n /\ nth (nth j q 0) p 0 = j).
Lemma nth_map_nth (I p : list nat) i : i < length p -> nth i (map (fun a => nth a I 0) p) 0 = nth (nth i p 0) I 0.
Proof. intros H. rewrite (nth_indep _ 0 (nth 0 I 0)) by (rewrite map_length; auto). apply (map_nth (fun a => nth a I 0)). Qed.
Lemma reordered_inv {A} w v xsh (x : list A) rsh r : invp (length xsh) (axes w (length xsh)) (axes v (length xsh)) -> rank w (length xsh) = length xsh -> rank v (length xsh) = length xsh -> array xsh x -> reordered w xsh x rsh r -> reordered v rsh r xsh x.
Proof.
  set (n := length xsh). intros (LP & LQ & H1 & H2) RW RV AX (LR & AR & M & E). fold n in LR, M, E. rewrite RW in LR. set (p := axes w n) in *. set (q := axes v n) in *.
  assert (SH : forall i, i < n -> nth_error rsh (nth i p 0) = nth_error xsh i). { intros i IB. destruct (H1 i IB) as [B1 B2]. destruct (M (nth i p 0)) as ((i' & E1 & E2) & _); [lia|]. assert (I' : i' < n) by (rewrite <- LP; apply nth_error_Some; congruence). apply nth_error_nth with (d := 0) in E1. assert (i = i'). { destruct (H1 i' I') as [_ B3]. rewrite E1 in B3. congruence. } subst i'. auto. }
  assert (SH' : forall j, j < n -> nth_error xsh (nth j q 0) = nth_error rsh j). { intros j JB. destruct (H2 j JB) as [B1 B2]. rewrite <- (SH _ B1), B2. auto. }
  unfold reordered. rewrite LR. fold q. rewrite RV. split; auto. split; auto. split.
  - intros j J. split.
    + destruct (H1 j J) as [B1 B2]. exists (nth j p 0). split; [rewrite nth_error_nth' with (d := 0) by (rewrite LQ; auto); congruence|apply SH; auto].
    + intros i l m E1 E2 E3. assert (IB : i < n) by (rewrite <- LQ; apply nth_error_Some; congruence). apply nth_error_nth with (d := 0) in E1. rewrite <- (SH' i IB), E1 in E2. rewrite E2 in E3. injection E3 as ->. auto.
  - intros J JB. pose proof (inb_len _ _ JB) as LJ. fold n in LJ. set (I := map (fun a => nth a J 0) q). assert (IB : inb rsh I). { apply inb_nth. unfold I. rewrite map_length. split; [lia|]. intros j HJ. rewrite nth_map_nth by lia. apply inb_nth in JB. destruct JB as [_ JB]. destruct (H2 j ltac:(lia)) as [B1 B2]. specialize (JB _ B1). specialize (SH' j ltac:(lia)). rewrite !nth_error_nth' with (d := 0) in SH' by (fold n; lia). injection SH' as <-. auto. }
    rewrite (E I IB). f_equal. apply nth_ext with (d := 0) (d' := 0); [rewrite map_length; lia|]. intros i Hi. rewrite LJ in Hi. rewrite nth_map_nth by lia. unfold I. destruct (H1 i Hi) as [B1 B2]. rewrite nth_map_nth by lia. rewrite B2. auto.
Qed.
Lemma invp_sym n p q : invp n p q -> invp n q p. Proof. intros (A & B & C & D). repeat split; auto; apply D || apply C; auto. Qed.
(** the axes named by a duplicate-free 𝕨 *)
Lemma axes_in w n j : valid w n -> rank w n = n -> (In j (axes w n) <-> j < n).
Proof.
  intros V R. unfold axes. rewrite R. rewrite in_app_iff, filter_In, in_seq. split; [intros [I|[I _]]; [|lia]; pose proof (valid_lt _ _ V) as F; rewrite Forall_forall in F; auto|]. intros J. destruct (isin j w) eqn:E; [left; apply isin_In; auto|right; split; [lia|auto]].
Qed.
Lemma half_inv n p q : length p = n -> length q = n -> (forall j, In j p <-> j < n) -> (forall i, i < n -> nth (nth i p 0) q 0 = i) -> invp n p q.
Proof.
  intros LP LQ IN H. assert (B : forall i, i < n -> nth i p 0 < n) by (intros i IB; apply IN, nth_In; lia). repeat split; auto.
  - apply IN in H0. apply (In_nth _ _ 0) in H0. destruct H0 as (i & I1 & <-). rewrite H by lia. lia.
  - apply IN in H0. apply (In_nth _ _ 0) in H0. destruct H0 as (i & I1 & <-). rewrite H by lia. auto.
Qed.
Lemma inv_fill_ok w : forall xr i mx p, length p = xr -> Forall (fun a => a < xr) w -> NoDup w -> (forall a, In a w -> nth_error p a = Some None) -> exists p' mx', inv_fill w xr i mx p = Ok (Some (p', mx')) /\ length p' = xr /\ mx <= mx' /\ Forall (fun a => a <= mx') w /\ (mx' = mx \/ In mx' w) /\ (forall k, k < length w -> nth_error p' (nth k w 0) = Some (Some (i + k))) /\ forall j, ~ In j w -> nth_error p' j = nth_error p j.
Proof.
  induction w as [|a w IH]; intros xr i mx p LP F ND N; cbn [inv_fill].
  - exists p, mx. repeat split; auto. cbn; intros; lia.
  - pose proof (Forall_inv F) as AB. cbn beta in AB. replace (xr <=? a) with false by (symmetry; apply Nat.leb_gt; auto). unfold rd. rewrite (N a) by (left; auto). cbn [bind]. unfold wr. replace (a <? length p) with true by (symmetry; apply Nat.ltb_lt; lia). cbn [bind]. inversion ND as [|? ? NI ND']; subst.
    destruct (IH (length p) (i + 1) (if mx <? a then a else mx) (upd p a (Some i))) as (p' & mx' & E & L & M1 & M2 & M3 & K & O); auto; [apply upd_length|exact (Forall_inv_tail F)| |]. { intros b IB. rewrite nth_error_upd. destruct (Nat.eqb_spec a b) as [->|]; [contradiction|]. apply N. right. auto. }
    exists p', mx'. split; auto. split; auto. split; [destruct (Nat.ltb_spec mx a); lia|]. split; [constructor; auto; destruct (Nat.ltb_spec mx a); lia|]. split; [destruct M3 as [M3|M3]; [|right; right; auto]; destruct (Nat.ltb_spec mx a); [right; left; auto|left; auto]|]. split.
    + intros [|k] KB; cbn [nth length] in *. * rewrite O by auto. rewrite nth_error_upd, Nat.eqb_refl. replace (a <? length p) with true by (symmetry; apply Nat.ltb_lt; lia). f_equal. f_equal. lia. * rewrite K by lia. f_equal. f_equal. lia.
    + intros j NJ. rewrite O by (intros IJ; apply NJ; right; auto). rewrite nth_error_upd. destruct (Nat.eqb_spec a j) as [->|]; auto. exfalso. apply NJ. left. auto.
Qed.
Lemma inv_out_len l : forall j, length (inv_out l j) = length l.
Proof. induction l as [|[i|] l IH]; intros j; cbn [inv_out length]; auto. Qed.
Lemma inv_out_some l : forall j k i, nth_error l k = Some (Some i) -> nth_error (inv_out l j) k = Some i.
Proof. induction l as [|[i0|] l IH]; intros j [|k] i E; cbn [inv_out nth_error] in *; try discriminate; auto. congruence. Qed.
Lemma inv_out_none l : forall j s t k, nth_error (filter (nonep (repeat None s ++ l)) (seq s (length l))) t = Some k -> s <= k /\ nth_error (inv_out l j) (k - s) = Some (j + t).
Proof.
  induction l as [|o l IH]; intros j s t k E; cbn [length seq filter] in E; [destruct t; discriminate|].
  assert (NS : nonep (repeat None s ++ o :: l) s = match o with None => true | _ => false end) by (unfold nonep; rewrite nth_error_app2 by (rewrite repeat_length; auto); rewrite repeat_length, Nat.sub_diag; destruct o; auto). rewrite NS in E.
  assert (FE : filter (nonep (repeat None s ++ o :: l)) (seq (S s) (length l)) = filter (nonep (repeat None (S s) ++ l)) (seq (S s) (length l))). { apply filter_ext_in. intros a I. apply in_seq in I. unfold nonep. rewrite !nth_error_app2 by (rewrite repeat_length; lia). rewrite !repeat_length. replace (a - s) with (S (a - S s)) by lia. auto. }
  destruct o as [i|]; cbn [inv_out].
  - rewrite FE in E. destruct (IH j (S s) t k E) as [B N]. split; [lia|]. replace (k - s) with (S (k - S s)) by lia. auto.
  - destruct t as [|t]; cbn [nth_error] in E; [injection E as <-; rewrite Nat.sub_diag; split; auto; cbn; f_equal; lia|]. rewrite FE in E. destruct (IH (j + 1) (S s) t k E) as [B N]. split; [lia|]. replace (k - s) with (S (k - S s)) by lia. cbn [nth_error]. rewrite N. f_equal. lia.
Qed.
Lemma nodup_rank w n : NoDup w -> length w <= n -> rank w n = n.
Proof. intros ND L. unfold rank. rewrite nodup_fixed_point by auto. lia. Qed.
Lemma nodup_valid w n : NoDup w -> length w <= n -> Forall (fun a => a < n) w -> valid w n.
Proof. intros ND L F. split; auto. rewrite nodup_rank; auto. Qed.
(** how the inverted list is determined by 𝕨 alone *)
Definition invspec (w v : list nat) : Prop := (w = [] /\ v = []) \/ exists na, 0 < na /\ Forall (fun a => a < na) w /\ In (na - 1) w /\ length v = na /\ (forall j, j < na -> In j (w ++ filter (fun j => negb (isin j w)) (seq 0 na))) /\ length (w ++ filter (fun j => negb (isin j w)) (seq 0 na)) = na /\ forall i, i < na -> nth (nth i (w ++ filter (fun j => negb (isin j w)) (seq 0 na)) 0) v 0 = i.
Lemma invspec_fun w v v' : invspec w v -> invspec w v' -> v = v'.
Proof.
  intros [[-> ->]|(na & N0 & F & IM & L & IN & LL & H)] [[E1 ->]|(na' & N0' & F' & IM' & L' & IN' & LL' & H')]; auto; try (subst w; contradiction); try contradiction.
  assert (EN : na' = na). { rewrite Forall_forall in F, F'. specialize (F _ IM'). specialize (F' _ IM). lia. } rewrite EN in *. clear EN. apply nth_ext with (d := 0) (d' := 0); [lia|]. intros j J. rewrite L in J. specialize (IN j J). apply (In_nth _ _ 0) in IN. destruct IN as (i & I1 & <-). rewrite H, H' by lia. auto.
Qed.
Lemma invert_ok w n : NoDup w -> valid w n -> exists v, invert_w w n = Ok (Some v) /\ NoDup v /\ valid v n /\ invspec w v /\ invp n (axes w n) (axes v n).
Proof.
  intros ND V. pose proof V as [LW _]. pose proof (valid_lt _ _ V) as FW. pose proof (nodup_rank w n ND LW) as R. unfold invert_w. destruct (Nat.eqb_spec (length w) 0) as [W0|W0].
  { destruct w; [|discriminate]. exists []. split; auto. split; auto. split; auto. split; [left; auto|]. destruct (seq_valid 0 n ltac:(lia)) as (_ & E & _). cbn [seq] in E. rewrite E. repeat split; rewrite ?seq_length; auto; intros; rewrite !seq_nth; auto. rewrite seq_nth; auto. rewrite seq_nth; auto. }
  replace (n <? length w) with false by (symmetry; apply Nat.ltb_ge; auto). destruct (inv_fill_ok w n 0 0 (repeat None n)) as (p' & mx & E & LP & _ & M2 & M3 & K & O); auto; [apply repeat_length|intros a I; rewrite Forall_forall in FW; apply nth_error_repeat; auto|]. rewrite E. cbn [bind]. set (na := mx + 1). set (v := inv_out (firstn na p') (length w)). exists v. split; auto.
  assert (MW : In mx w). { destruct M3 as [->|]; auto. destruct w as [|a w]; [cbn in W0; lia|]. pose proof (Forall_inv M2). cbn beta in *. left. lia. } assert (NA : na <= n) by (rewrite Forall_forall in FW; specialize (FW _ MW); unfold na; lia). assert (FN : Forall (fun a => a < na) w) by (eapply Forall_impl; [|exact M2]; cbn beta; unfold na; lia).
  assert (LV : length v = na) by (unfold v; rewrite inv_out_len, firstn_length; lia). set (q := filter (fun j => negb (isin j w)) (seq 0 na)). assert (LQ : length q = na - length w) by (unfold q; rewrite filter_notin_len, nodup_fixed_point by auto; auto). assert (WN : length w <= na) by (rewrite <- (nodup_fixed_point Nat.eq_dec ND), <- (filter_in_len w na FN); rewrite <- (seq_length na 0) at 2; rewrite <- (filter_split (fun j => isin j w) (seq 0 na)); lia).
  assert (PS : axes w n = (w ++ q) ++ seq na (n - na)) by (rewrite (axes_split w n na) by (rewrite ?R; auto); rewrite R; auto). pose proof (axes_len w n V) as LA.
  assert (QE : q = filter (nonep (repeat None 0 ++ firstn na p')) (seq 0 (length (firstn na p')))). { unfold q. rewrite firstn_length, LP, Nat.min_l by auto. apply filter_ext_in. intros k I. apply in_seq in I. unfold nonep. cbn [repeat app]. rewrite nth_error_firstn_lt by lia. destruct (isin k w) eqn:EI; cbn [negb]. - apply isin_In in EI. apply (In_nth _ _ 0) in EI. destruct EI as (t & T & <-). rewrite K by auto. auto. - assert (NI : ~ In k w) by (rewrite <- isin_In; congruence). rewrite O by auto. rewrite nth_error_repeat by lia. auto. }
  (* the code's list is the inverse on the moved axes *)
  assert (IV : forall i, i < na -> nth (nth i (w ++ q) 0) v 0 = i). { intros i IB. apply nth_error_nth. destruct (Nat.lt_ge_cases i (length w)) as [I1|I1].
    - rewrite app_nth1 by auto. apply inv_out_some. rewrite nth_error_firstn_lt by (rewrite Forall_forall in FN; apply FN, nth_In; auto). rewrite K by auto. auto.
    - rewrite app_nth2 by auto. assert (EQ : nth_error q (i - length w) = Some (nth (i - length w) q 0)) by (apply nth_error_nth'; lia). rewrite QE in EQ at 1. apply inv_out_none with (j := length w) in EQ. destruct EQ as [_ EQ]. rewrite Nat.sub_0_r in EQ. unfold v. rewrite EQ. f_equal. lia. }
  assert (INA : forall j, j < na -> In j (w ++ q)). { intros j J. apply in_or_app. destruct (isin j w) eqn:EI; [left; apply isin_In; auto|right; apply filter_In; rewrite EI; split; auto; apply in_seq; lia]. }
  assert (LWQ : length (w ++ q) = na) by (rewrite app_length; lia).
  assert (VB : Forall (fun a => a < na) v). { apply Forall_forall. intros a I. apply (In_nth _ _ 0) in I. destruct I as (j & J & <-). rewrite LV in J. pose proof (INA j J) as I. apply (In_nth _ _ 0) in I. destruct I as (i & I1 & <-). rewrite IV by lia. lia. }
  assert (NDV : NoDup v). { apply (NoDup_nth _ 0). intros j j' J J' EJ. rewrite LV in *. pose proof (INA j J) as I. apply (In_nth _ _ 0) in I. destruct I as (i & I1 & EI). pose proof (INA j' J') as I. apply (In_nth _ _ 0) in I. destruct I as (i' & I1' & EI'). subst j j'. rewrite !IV in EJ by lia. congruence. }
  assert (VV : valid v n). { apply nodup_valid; auto; [lia|]. eapply Forall_impl; [|exact VB]. cbn beta. lia. } split; auto. split; auto. split; [right; exists na; repeat split; auto; unfold na; rewrite ?Nat.add_sub; auto; lia|].
  assert (VS : axes v n = v ++ seq na (n - na)). { pose proof (nodup_rank v n NDV ltac:(lia)) as RV. rewrite (axes_split v n na VV) by (rewrite ?RV; auto). rewrite RV. f_equal. assert (N : filter (fun j => negb (isin j v)) (seq 0 na) = []); [|rewrite N; apply app_nil_r]. apply length_zero_iff_nil. rewrite filter_notin_len, nodup_fixed_point by auto. lia. }
  apply half_inv; auto; [apply axes_len; auto|intros j; apply axes_in; auto|]. intros i IB. rewrite PS, VS. destruct (Nat.lt_ge_cases i na) as [I1|I1].
  - rewrite (app_nth1 (w ++ q)) by lia. assert (nth i (w ++ q) 0 < na). { assert (In (nth i (w ++ q) 0) (w ++ q)) by (apply nth_In; lia). apply in_app_or in H. destruct H as [H|H]; [rewrite Forall_forall in FN; auto|apply filter_In in H; destruct H as [H _]; apply in_seq in H; lia]. } rewrite app_nth1 by lia. apply IV. auto.
  - rewrite (app_nth2 (w ++ q)) by lia. rewrite LWQ, seq_nth by lia. rewrite app_nth2 by lia. rewrite LV, seq_nth by lia. lia.
Qed.
Lemma inv_fill_dup w : forall xr i mx p, length p = xr -> Forall (fun a => a < xr) w -> (~ NoDup w \/ exists a, In a w /\ nth_error p a <> Some None) -> inv_fill w xr i mx p = Ok None.
Proof.
  induction w as [|a w IH]; intros xr i mx p LP F D; cbn [inv_fill].
  - destruct D as [D|(a & [] & _)]. exfalso. apply D. constructor.
  - pose proof (Forall_inv F) as AB. cbn beta in AB. replace (xr <=? a) with false by (symmetry; apply Nat.leb_gt; auto). unfold rd. destruct (nth_error p a) as [[o|]|] eqn:EP; [cbn [bind]; auto| |apply nth_error_None in EP; lia]. cbn [bind]. unfold wr. replace (a <? length p) with true by (symmetry; apply Nat.ltb_lt; lia). cbn [bind]. apply IH; [rewrite upd_length; auto|exact (Forall_inv_tail F)|]. destruct (in_dec Nat.eq_dec a w) as [IA|NA].
    + right. exists a. split; auto. rewrite nth_error_upd, Nat.eqb_refl. destruct (a <? length p); congruence.
    + destruct D as [D|(b & IB & NB)]; [left; intros ND; apply D; constructor; auto|]. right. destruct IB as [->|IB]; [contradiction|]. exists b. split; auto. rewrite nth_error_upd. destruct (Nat.eqb_spec a b) as [->|]; [contradiction|auto].
Qed.
Lemma inv_fill_big w : forall xr i mx p, length p = xr -> ~ Forall (fun a => a < xr) w -> inv_fill w xr i mx p = Err \/ inv_fill w xr i mx p = Ok None.
Proof.
  induction w as [|a w IH]; intros xr i mx p LP NF; cbn [inv_fill]; [exfalso; auto|]. destruct (Nat.leb_spec xr a) as [|AB]; auto. unfold rd. destruct (nth_error p a) as [[o|]|] eqn:EP; [cbn [bind]; auto| |apply nth_error_None in EP; lia]. cbn [bind]. unfold wr. replace (a <? length p) with true by (symmetry; apply Nat.ltb_lt; lia). cbn [bind]. apply IH; [rewrite upd_length; auto|]. intros F. apply NF. constructor; auto.
Qed.
