From Verif Require Import Base ListLib TransModel TransSpec TransProof TransProof5 TransProof6 TransProof7 TransProof8 TransProof9.
From Coq Require Import List Arith Lia Permutation.
Open Scope nat_scope.
Lemma valid_dec w n : {valid w n} + {~ valid w n}.
Proof. unfold valid. destruct (le_dec (length w) n); [|right; tauto]. destruct (Forall_dec (fun a => a < rank w n) (fun a => lt_dec a (rank w n)) w); [left|right]; tauto. Qed.
Lemma reorder_inv {A} lw isB w xsh (x : list A) rsh r : array xsh x -> reorder lw isB w xsh x = Ok (rsh, r) -> valid w (length xsh) /\ reordered w xsh x rsh r.
Proof.
  intros AX E. destruct (valid_dec w (length xsh)) as [V|V]; [|rewrite reorder_err in E by auto; discriminate]. split; auto. destruct (reorder_ok lw isB w xsh x AX V) as (s & r' & E' & R). rewrite E in E'. injection E' as <- <-. auto.
Qed.
Lemma reordered_array {A} w xsh (x : list A) rsh r : reordered w xsh x rsh r -> array rsh r. Proof. intros (_ & H & _). auto. Qed.
Lemma invert_inv w n v : invert_w w n = Ok (Some v) -> NoDup w /\ valid w n.
Proof.
  unfold invert_w. destruct (Nat.eqb_spec (length w) 0) as [W0|W0]. { intros _. destruct w; [|discriminate]. split; [constructor|]. split; [cbn; lia|constructor]. } destruct (Nat.ltb_spec n (length w)); [discriminate|]. intros E. assert (F : Forall (fun a => a < n) w). { destruct (Forall_dec (fun a => a < n) (fun a => lt_dec a n) w) as [|NF]; auto. destruct (inv_fill_big w n 0 0 (repeat None n) (repeat_length _ _) NF) as [EE|EE]; rewrite EE in E; discriminate. }
  assert (ND : NoDup w). { destruct (ListDec.NoDup_dec Nat.eq_dec w) as [|ND]; auto. rewrite (inv_fill_dup w n 0 0 (repeat None n) (repeat_length _ _) F) in E by auto. discriminate. } split; auto. apply nodup_valid; auto.
Qed.
Lemma invert_valid w n v n' : invert_w w n = Ok (Some v) -> valid v n' -> NoDup w /\ NoDup v /\ valid w n' /\ invp n' (axes w n') (axes v n').
Proof.
  intros E VV. destruct (invert_inv _ _ _ E) as [ND V]. destruct (invert_ok w n ND V) as (v0 & E0 & NDV & _ & SP & _). rewrite E in E0. injection E0 as <-. split; auto. split; auto. assert (V' : valid w n'). { destruct SP as [[-> _]|(na & N0 & F & IM & L & IN & LL & _)]; [split; [cbn; lia|constructor]|]. destruct VV as [LV _]. apply nodup_valid; auto; [|eapply Forall_impl; [|exact F]; cbn beta; lia]. rewrite app_length in LL. lia. }
  split; auto. destruct (invert_ok w n' ND V') as (v' & E' & _ & _ & SP' & IP). rewrite (invspec_fun _ _ _ SP SP'). auto.
Qed.
Lemma valid_rank w n : NoDup w -> valid w n -> rank w n = n. Proof. intros ND [L _]. apply nodup_rank; auto. Qed.
Lemma undo_left {A} w v xsh (x : list A) rsh r : NoDup w -> NoDup v -> valid w (length xsh) -> valid v (length xsh) -> invp (length xsh) (axes w (length xsh)) (axes v (length xsh)) -> array xsh x -> reordered w xsh x rsh r -> reordered v rsh r xsh x.
Proof. intros ND NDV V VV IP AX R. eapply reordered_inv; eauto; apply valid_rank; auto. Qed.
Lemma rlen {A} w xsh (x : list A) rsh r : NoDup w -> valid w (length xsh) -> reordered w xsh x rsh r -> length rsh = length xsh.
Proof. intros ND V (L & _). rewrite L. apply valid_rank; auto. Qed.
(** ** a single number *)
Lemma axes1 a n : a < n -> axes [a] n = a :: seq 0 a ++ seq (a + 1) (n - (a + 1)).
Proof.
  intros H. assert (R : rank [a] n = n) by (unfold rank; cbn; lia). rewrite (axes_split [a] n (a + 1)); [|split; [cbn; lia|rewrite R; auto]|lia|repeat constructor; lia]. rewrite R. cbn [app]. f_equal. rewrite seq_app, filter_app. cbn [seq filter Nat.add]. assert (E : isin a [a] = true) by (apply isin_In; left; auto). rewrite E. cbn [negb]. rewrite app_nil_r. f_equal. apply filter_all. intros b I. apply in_seq in I. destruct (isin b [a]) eqn:EB; auto. apply isin_In in EB. destruct EB as [<-|[]]. lia.
Qed.
Lemma axes_r1 a n : a < n -> NoDup (seq 1 a) /\ valid (seq 1 a) n /\ axes (seq 1 a) n = seq 1 a ++ 0 :: seq (a + 1) (n - (a + 1)).
Proof.
  intros H. pose proof (seq_NoDup a 1) as ND. assert (V : valid (seq 1 a) n). { apply nodup_valid; auto; [rewrite seq_length; lia|]. apply Forall_forall. intros b I. apply in_seq in I. lia. } split; auto. split; auto. assert (R : rank (seq 1 a) n = n) by (apply valid_rank; auto). rewrite (axes_split (seq 1 a) n (a + 1)) by (auto; try lia; apply Forall_forall; intros b I; apply in_seq in I; lia). rewrite R, <- app_assoc. f_equal. rewrite (Nat.add_comm a 1). cbn [Nat.add seq filter]. destruct (isin 0 (seq 1 a)) eqn:E0; [apply isin_In in E0; apply in_seq in E0; lia|]. cbn [negb app]. f_equal. assert (N : filter (fun j => negb (isin j (seq 1 a))) (seq 1 a) = []); [|rewrite N; auto]. generalize (seq 1 a). intros l. assert (Q : forall m, (forall b, In b m -> In b l) -> filter (fun j => negb (isin j l)) m = []). { induction m as [|b m IH]; intros S; auto. cbn [filter]. rewrite (proj2 (isin_In b l)) by (apply S; left; auto). apply IH. intros; apply S; right; auto. } apply Q. auto.
Qed.
Lemma invp1 a n : a < n -> invp n (axes [a] n) (axes (seq 1 a) n).
Proof.
  intros H. assert (V : valid [a] n) by (apply nodup_valid; [repeat constructor; auto|cbn; lia|repeat constructor; lia]). destruct (axes_r1 a n H) as (ND & VV & E2). apply half_inv; [apply axes_len; auto|apply axes_len; auto|intros j; apply axes_in; auto; apply valid_rank; auto; repeat constructor; auto|].
  intros i IB. rewrite (axes1 a n H), E2. destruct i as [|i]; cbn [nth].
  - rewrite app_nth2 by (rewrite seq_length; lia). rewrite seq_length, Nat.sub_diag. auto.
  - destruct (Nat.lt_ge_cases i a) as [I1|I1].
    + rewrite (app_nth1 (seq 0 a)) by (rewrite seq_length; auto). rewrite seq_nth by auto. rewrite app_nth1 by (rewrite seq_length; auto). rewrite seq_nth by lia. lia.
    + rewrite (app_nth2 (seq 0 a)) by (rewrite seq_length; auto). rewrite seq_length, seq_nth by lia. rewrite app_nth2 by (rewrite seq_length; lia). rewrite seq_length. replace (a + 1 + (i - a) - a) with (S (i - a)) by lia. cbn [nth]. rewrite seq_nth by lia. lia.
Qed.
Lemma transposed_reordered {A} xsh (x : list A) rsh r : xsh <> [] -> transposed xsh x rsh r -> reordered [length xsh - 1] xsh x rsh r.
Proof.
  destruct xsh as [|h tl]; [contradiction|]. intros _ (-> & AR & E). cbn [length]. replace (S (length tl) - 1) with (length tl) by lia. set (m := length tl). unfold reordered. cbn [length]. fold m. rewrite (axes1 m (S m)) by lia. replace (S m - (m + 1)) with 0 by lia. cbn [seq]. rewrite app_nil_r. split; [rewrite app_length; unfold rank; cbn [nodup in_dec length]; cbn; lia|]. split; auto. split.
  - intros j J. rewrite app_length in J. cbn [length] in J. split.
    + destruct (Nat.lt_ge_cases j m) as [JM|JM].
      * exists (S j). cbn [nth_error]. rewrite nth_error_nth' with (d := 0) by (rewrite seq_length; auto). rewrite seq_nth by auto. split; auto. rewrite nth_error_app1 by auto. auto.
      * exists 0. assert (j = m) by lia. subst j. cbn [nth_error]. split; auto. rewrite nth_error_app2 by auto. fold m. rewrite Nat.sub_diag. auto.
    + intros [|i] l k E1 E2 E3; cbn [nth_error] in *.
      * injection E1 as <-. rewrite nth_error_app2 in E3 by auto. fold m in E3. rewrite Nat.sub_diag in E3. cbn in E3. assert (k = l) by congruence. lia.
      * assert (IB : i < m) by (rewrite <- (seq_length m 0); apply nth_error_Some; congruence). rewrite nth_error_nth' with (d := 0) in E1 by (rewrite seq_length; auto). rewrite seq_nth in E1 by auto. injection E1 as <-. cbn [Nat.add] in E3. rewrite nth_error_app1 in E3 by auto. assert (k = l) by congruence. lia.
  - intros I IB. apply inb_snoc in IB. destruct IB as (J & i & -> & HJ & HI). rewrite E by (constructor; auto). f_equal. cbn [map]. pose proof (inb_len _ _ HJ) as LJ. fold m in LJ. rewrite app_nth2 by lia. replace (m - length J) with 0 by lia. cbn [nth]. f_equal. rewrite <- (map_nth_all J) at 1. rewrite LJ. apply map_ext_in. intros a IA. apply in_seq in IA. rewrite app_nth1 by lia. auto.
Qed.
Lemma reorder1_ok {A} lw isB a xsh (x : list A) : array xsh x -> a < length xsh -> exists rsh r, reorder1 lw isB a xsh x = Ok (rsh, r) /\ reordered [a] xsh x rsh r.
Proof.
  intros AX AB. unfold reorder1. replace (length xsh <? 1) with false by (symmetry; apply Nat.ltb_ge; lia). replace (length xsh <=? a) with false by (symmetry; apply Nat.leb_gt; lia). destruct (Nat.eqb_spec a (length xsh - 1)) as [->|NE].
  - destruct (transp_ok xsh x AX) as (rsh & r & E & T). exists rsh, r. split; auto. apply transposed_reordered; auto. intros ->. cbn in AB. lia.
  - apply reorder_ok; auto. apply nodup_valid; [repeat constructor; auto|cbn; lia|repeat constructor; auto].
Qed.
