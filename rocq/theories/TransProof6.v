From Verif Require Import Base ListLib TransModel TransSpec TransProof TransProof2 TransProof3 TransProof4 TransProof5.
From Coq Require Import List Arith Lia Permutation.
Open Scope nat_scope.
(** * the given axes *)
Definition upd1 (j : nat) (o : option nat) (a : nat * nat) : option nat := let '(j', xl) := a in if j' =? j then Some (match o with Some l => if xl <? l then xl else l | None => xl end) else o.
Definition some (o : option nat) : bool := match o with Some _ => true | None => false end.
Definition somes (l : list (option nat)) : nat := length (filter some l).
Lemma somes_upd l : forall j o v, nth_error l j = Some o -> somes (upd l j (Some v)) = somes l + (if some o then 0 else 1).
Proof. unfold somes. induction l as [|a l IH]; intros [|j] o v E; cbn in E; try discriminate. - injection E as ->. cbn [upd filter some]. destruct o; cbn [some length]; lia. - cbn [upd filter]. specialize (IH j o v E). destruct (some a); cbn [length]; lia. Qed.
Lemma given_ok p : forall xsh i rsh dup mx id, length p <= length xsh -> Forall (fun a => a < length rsh) p -> exists rsh' dup' mx' id', given p xsh i rsh dup mx id = Ok (rsh', dup', mx', id') /\ length rsh' = length rsh /\
  (forall j o, nth_error rsh j = Some o -> nth_error rsh' j = Some (fold_left (upd1 j) (combine p xsh) o)) /\ dup' + somes rsh' = dup + somes rsh + length p /\ mx <= mx' /\ Forall (fun a => a <= mx') p /\ (mx' = mx \/ In mx' p) /\
  id' <= id + length p /\ (id' = id + length p -> p = seq i (length p)).
Proof.
  induction p as [|j p IH]; intros xsh i rsh dup mx id L FP; cbn [given length].
  - exists rsh, dup, mx, id. split; auto. split; auto. split; [intros j o E; destruct xsh; exact E|]. repeat split; auto; lia.
  - destruct xsh as [|xl xsh]; [cbn in L; lia|]. pose proof (Forall_inv FP) as J. pose proof (Forall_inv_tail FP) as FP'. cbn beta in J. unfold rd. destruct (nth_error rsh j) as [o|] eqn:EO; [|apply nth_error_None in EO; lia]. cbn [bind]. unfold wr. replace (j <? length rsh) with true by (symmetry; apply Nat.ltb_lt; auto). cbn [bind]. set (nl := match o with Some l => if xl <? l then xl else l | None => xl end).
    destruct (IH xsh (i + 1) (upd rsh j (Some nl)) (dup + match o with Some _ => 1 | None => 0 end) (if mx <? j then j else mx) (id + (if i =? j then 1 else 0))) as (rsh' & dup' & mx' & id' & E & LR & V & D & M1 & M2 & M3 & I1 & I2); [cbn [length] in L; lia|rewrite upd_length; auto|]. rewrite E. exists rsh', dup', mx', id'. split; auto. rewrite upd_length in LR. split; auto. split; [|split; [|split; [|split; [|split; [|split]]]]].
    + intros k ok EK. cbn [combine fold_left upd1]. rewrite (V k (if j =? k then Some nl else ok)). * destruct (Nat.eqb_spec j k); auto. subst k. rewrite EO in EK. injection EK as <-. reflexivity. * rewrite nth_error_upd. replace (j <? length rsh) with true by (symmetry; apply Nat.ltb_lt; auto). destruct (j =? k); auto.
    + rewrite (somes_upd _ _ o) in D by auto. destruct o; cbn [some] in D; lia.
    + destruct (Nat.ltb_spec mx j); lia.
    + constructor; auto. destruct (Nat.ltb_spec mx j); lia.
    + destruct M3 as [M3|M3]; [|right; right; auto]. destruct (Nat.ltb_spec mx j); [right; left; auto|left; auto].
    + destruct (i =? j); lia.
    + intros EI. destruct (Nat.eqb_spec i j); [|lia]. subst j. cbn [seq]. f_equal. replace (S i) with (i + 1) by lia. apply I2. lia.
Qed.
Lemma fold_upd1 j ps : forall o, match fold_left (upd1 j) ps o with
  | Some m => (o = Some m \/ In (j, m) ps) /\ (forall l, o = Some l \/ In (j, l) ps -> m <= l)
  | None => o = None /\ ~ In j (map fst ps) end.
Proof.
  induction ps as [|[j' l'] ps IH]; intros o; cbn [fold_left map fst].
  - destruct o as [m|]; [|split; auto]. split; auto. intros l [E|[]]. injection E as ->. auto.
  - specialize (IH (upd1 j o (j', l'))). cbn [upd1] in *. destruct (Nat.eqb_spec j' j) as [->|NE].
    + destruct (fold_left (upd1 j) ps _) as [m|]; [|destruct IH; discriminate]. destruct IH as [H1 H2]. pose proof (H2 _ (or_introl eq_refl)) as B. split.
      * destruct H1 as [H1|H1]; [|right; right; auto]. destruct o as [l|]; [|right; left; congruence]. destruct (l' <? l); [right; left; congruence|left; congruence].
      * intros l [E|[E|I]]; [subst o|injection E as ->|apply H2; auto]. -- destruct (Nat.ltb_spec l' l); lia. -- destruct o as [l0|]; [destruct (Nat.ltb_spec l l0)|]; lia.
    + destruct (fold_left (upd1 j) ps o) as [m|].
      * destruct IH as [H1 H2]. split; [destruct H1; [left|right; right]; auto|]. intros l [E|[E|I]]; auto. congruence.
      * destruct IH as [H1 H2]. split; auto. intros [E|I]; auto.
Qed.
(** * the remaining axes *)
Definition nonep (rsh : list (option nat)) (k : nat) : bool := match nth_error rsh k with Some None => true | _ => false end.
Lemma missing_ok n : forall j rsh xsh, j + n <= length rsh -> length (filter (nonep rsh) (seq j n)) = length xsh -> exists q r, missing n j rsh xsh = Ok (q, r) /\ q = filter (nonep rsh) (seq j n) /\ length r = n /\
  (forall k l, k < n -> nth_error rsh (j + k) = Some (Some l) -> nth_error r k = Some l) /\ forall a b, In (a, b) (combine q xsh) -> j <= a < j + n /\ nth_error r (a - j) = Some b.
Proof.
  induction n as [|n IH]; intros j rsh xsh B L; cbn [missing seq filter] in *; [exists [], []; repeat split; auto; try (intros; lia); contradiction|]. unfold rd. destruct (nth_error rsh j) as [o|] eqn:EO; [|apply nth_error_None in EO; lia]. cbn [bind]. assert (NP : nonep rsh j = match o with None => true | _ => false end) by (unfold nonep; rewrite EO; destruct o; reflexivity). rewrite NP in *. replace (S j) with (j + 1) in * by lia. destruct o as [l|].
  - destruct (IH (j + 1) rsh xsh) as (q & r & E & Q & LR & V1 & V2); [lia|auto|]. rewrite E. cbn [bind]. exists q, (l :: r). split; auto. split; auto. split; [cbn [length]; lia|]. split.
    + intros [|k] l' KB EK; [rewrite Nat.add_0_r in EK; rewrite EO in EK; cbn; congruence|]. cbn [nth_error]. apply V1; [lia|]. rewrite <- EK. f_equal. lia.
    + intros a b I. destruct (V2 a b I) as [AB EA]. split; [lia|]. replace (a - j) with (S (a - (j + 1))) by lia. auto.
  - destruct xsh as [|xl xsh]; cbn [length] in L; [lia|]. destruct (IH (j + 1) rsh xsh) as (q & r & E & Q & LR & V1 & V2); [lia|lia|]. rewrite E. cbn [bind]. exists (j :: q), (xl :: r). split; auto. split; [congruence|]. split; [cbn [length]; lia|]. split.
    + intros [|k] l' KB EK; [rewrite Nat.add_0_r in EK; rewrite EO in EK; discriminate|]. cbn [nth_error]. apply V1; [lia|]. rewrite <- EK. f_equal. lia.
    + intros a b [I|I]; [injection I as <- <-; rewrite Nat.sub_diag; split; [lia|reflexivity]|]. destruct (V2 a b I) as [AB EA]. split; [lia|]. replace (a - j) with (S (a - (j + 1))) by lia. auto.
Qed.
(** * counting *)
Lemma isin_In j w : isin j w = true <-> In j w.
Proof. unfold isin. rewrite existsb_exists. split; [intros (y & I & E); apply Nat.eqb_eq in E; subst; auto|intros I; exists j; rewrite Nat.eqb_refl; auto]. Qed.
Lemma filter_in_len w n : Forall (fun a => a < n) w -> length (filter (fun j => isin j w) (seq 0 n)) = length (nodup Nat.eq_dec w).
Proof.
  intros F. apply Permutation_length, NoDup_Permutation; [apply NoDup_filter, seq_NoDup|apply NoDup_nodup|]. intros j. rewrite filter_In, in_seq, isin_In, nodup_In. rewrite Forall_forall in F. split; [tauto|]. intros I. specialize (F j I). split; [lia|auto].
Qed.
Lemma filter_split {B} (f : B -> bool) l : length (filter f l) + length (filter (fun b => negb (f b)) l) = length l.
Proof. induction l as [|b l IH]; auto. cbn [filter length]. destruct (f b); cbn [negb length]; lia. Qed.
Lemma filter_notin_len w n : Forall (fun a => a < n) w -> length (filter (fun j => negb (isin j w)) (seq 0 n)) = n - length (nodup Nat.eq_dec w).
Proof. intros F. pose proof (filter_split (fun j => isin j w) (seq 0 n)) as E. rewrite filter_in_len, seq_length in E by auto. lia. Qed.
Lemma somes_count (l : list (option nat)) : forall s, somes l = length (filter (fun k => match nth_error l (k - s) with Some (Some _) => true | _ => false end) (seq s (length l))).
Proof.
  induction l as [|a l IH]; intros s; auto. cbn [length seq filter]. rewrite Nat.sub_diag. cbn [nth_error]. unfold somes in *. cbn [filter]. assert (E : filter (fun k => match nth_error (a :: l) (k - s) with Some (Some _) => true | _ => false end) (seq (S s) (length l)) = filter (fun k => match nth_error l (k - S s) with Some (Some _) => true | _ => false end) (seq (S s) (length l))). { apply filter_ext_in. intros k I. apply in_seq in I. replace (k - s) with (S (k - S s)) by lia. reflexivity. } rewrite E. specialize (IH (S s)). destruct a; cbn [some length]; lia.
Qed.
Lemma nodup_len_le w : length (nodup Nat.eq_dec w) <= length w.
Proof. induction w as [|a w IH]; auto. cbn [nodup]. destruct (in_dec Nat.eq_dec a w); cbn [length]; lia. Qed.
Lemma valid_lt w xr : valid w xr -> Forall (fun a => a < xr) w.
Proof. intros [L F]. eapply Forall_impl; [|exact F]. intros a H. cbn beta in *. unfold rank in H. pose proof (nodup_len_le w). lia. Qed.
Lemma axes_len w xr : valid w xr -> length (axes w xr) = xr.
Proof. intros [L F]. unfold axes. rewrite app_length, filter_notin_len by auto. unfold rank. pose proof (nodup_len_le w). lia. Qed.
(** * everything the code computes before moving elements *)
Record plan (w xsh : list nat) (rsh : list nat) : Prop := {
  p_len : length rsh = rank w (length xsh);
  p_min : forall j, j < length rsh -> exists m, nth_error rsh j = Some m /\ In (j, m) (combine (axes w (length xsh)) xsh) /\ forall l, In (j, l) (combine (axes w (length xsh)) xsh) -> m <= l }.
Lemma plan_ok w xsh : w <> [] -> valid w (length xsh) -> exists rsh0 dup mx id q rsh,
  given w xsh 0 (repeat None (length xsh)) 0 0 0 = Ok (rsh0, dup, mx, id) /\ (id = length w -> w = seq 0 (length w)) /\ rank w (length xsh) = length xsh - dup /\ dup <= length xsh /\ mx < rank w (length xsh) /\ In mx w /\ Forall (fun a => a <= mx) w /\
  missing (rank w (length xsh)) 0 rsh0 (skipn (length w) xsh) = Ok (q, rsh) /\ w ++ q = axes w (length xsh) /\ plan w xsh rsh /\ length (nodup Nat.eq_dec w) + dup = length w.
Proof.
  intros NE V. pose proof V as [LW FW]. pose proof (valid_lt _ _ V) as FX. set (xr := length xsh) in *. set (rr := rank w xr) in *.
  destruct (given_ok w xsh 0 (repeat None xr) 0 0 0 LW) as (rsh0 & dup & mx & id & EG & LR & VR & D & M1 & M2 & M3 & I1 & I2); [rewrite repeat_length; auto|]. rewrite repeat_length in LR.
  assert (VR' : forall j, j < xr -> nth_error rsh0 j = Some (fold_left (upd1 j) (combine w xsh) None)). { intros j JB. apply VR. apply nth_error_repeat. auto. } clear VR.
  assert (NONE : forall j, j < xr -> (nth_error rsh0 j = Some None <-> ~ In j w)). { intros j JB. rewrite VR' by auto. pose proof (fold_upd1 j (combine w xsh) None) as H. assert (MF : map fst (combine w xsh) = w). { clear - LW. subst xr. revert LW. generalize xsh. induction w as [|a w IH]; intros [|b xs] L; cbn in *; try lia; auto. f_equal. apply IH. lia. } rewrite MF in H. destruct (fold_left (upd1 j) (combine w xsh) None) as [m|]; [|split; [tauto|reflexivity]]. split; [discriminate|]. intros NI. exfalso. apply NI. destruct H as [[H|H] _]; [discriminate|]. rewrite <- MF. apply (in_map fst) in H. exact H. }
  assert (S0 : somes (repeat None xr) = 0) by (unfold somes; generalize xr as k; induction k; auto). rewrite S0 in D. assert (SM : somes rsh0 = length (nodup Nat.eq_dec w)). { rewrite (somes_count rsh0 0), LR. rewrite <- (filter_in_len w xr) by auto. f_equal. apply filter_ext_in. intros k I. apply in_seq in I. rewrite Nat.sub_0_r. destruct (isin k w) eqn:EI. - apply isin_In in EI. specialize (NONE k ltac:(lia)). destruct (nth_error rsh0 k) as [[l|]|] eqn:EK; auto; [tauto|apply nth_error_None in EK; lia]. - assert (NI : ~ In k w) by (rewrite <- isin_In; congruence). apply NONE in NI; [rewrite NI; auto|lia]. }
  assert (DUP : length (nodup Nat.eq_dec w) + dup = length w) by lia. assert (RR : rr = xr - dup) by (unfold rr, rank; lia). assert (MXW : In mx w). { destruct M3 as [M3|M3]; auto. subst mx. destruct w as [|a w]; [contradiction|]. pose proof (Forall_inv M2). cbn beta in H. assert (a = 0) by lia. left. auto. }
  assert (MXR : mx < rr) by (rewrite Forall_forall in FW; apply FW; auto). assert (RX : rr <= xr) by lia.
  assert (QE : filter (nonep rsh0) (seq 0 rr) = filter (fun j => negb (isin j w)) (seq 0 rr)). { apply filter_ext_in. intros k I. apply in_seq in I. unfold nonep. specialize (NONE k ltac:(lia)). destruct (isin k w) eqn:EI; cbn [negb]. - apply isin_In in EI. destruct (nth_error rsh0 k) as [[l|]|]; auto. tauto. - assert (NI : ~ In k w) by (rewrite <- isin_In; congruence). apply NONE in NI. rewrite NI. auto. }
  destruct (missing_ok rr 0 rsh0 (skipn (length w) xsh)) as (q & rsh & EM & Q & LQ & V1 & V2); [lia|rewrite QE, filter_notin_len, skipn_length by auto; fold xr; unfold rr, rank; lia|].
  rewrite QE in Q. exists rsh0, dup, mx, id, q, rsh. assert (AX : w ++ q = axes w xr) by (rewrite Q; reflexivity). repeat split; auto; try lia.
  - intros j JB. rewrite LQ in JB. fold xr. rewrite <- AX. assert (CB : combine (w ++ q) xsh = combine w xsh ++ combine q (skipn (length w) xsh)). { rewrite <- (firstn_skipn (length w) xsh) at 1. rewrite combine_app' by (rewrite firstn_length; lia). f_equal. symmetry. apply combine_firstn_l. } rewrite CB. specialize (VR' j ltac:(lia)). pose proof (fold_upd1 j (combine w xsh) None) as H. destruct (fold_left (upd1 j) (combine w xsh) None) as [m|].
    + exists m. split; [apply V1; auto|]. destruct H as [[H|H] H2]; [discriminate|]. split; [apply in_or_app; auto|]. intros l I. apply in_app_or in I. destruct I as [I|I]; [apply H2; auto|]. exfalso. apply in_combine_l in I. rewrite Q in I. apply filter_In in I. destruct I as [_ I]. apply in_combine_l in H. apply isin_In in H. rewrite H in I. discriminate.
    + assert (NI : ~ In j w) by (apply NONE; [lia|auto]). assert (JQ : In j q). { rewrite Q. apply filter_In. split; [apply in_seq; lia|]. destruct (isin j w) eqn:EI; auto. apply isin_In in EI. contradiction. } assert (LQQ : length q = length (skipn (length w) xsh)) by (rewrite Q, filter_notin_len, skipn_length by auto; fold xr; unfold rr, rank; lia). apply In_nth_error in JQ. destruct JQ as (t & ET). assert (TB : t < length (skipn (length w) xsh)) by (rewrite <- LQQ; apply nth_error_Some; congruence). destruct (nth_error (skipn (length w) xsh) t) as [m|] eqn:EX; [|apply nth_error_None in EX; lia].
      assert (JM : In (j, m) (combine q (skipn (length w) xsh))). { apply nth_error_In with (n := t). clear - ET EX. revert ET EX. generalize (skipn (length w) xsh). revert t. induction q as [|a q IH]; intros [|t] [|b l] E1 E2; cbn in *; try discriminate; [congruence|]. eapply IH; eauto. }
      destruct (V2 _ _ JM) as [_ EJ]. rewrite Nat.sub_0_r in EJ. exists m. split; auto. split; [apply in_or_app; auto|]. intros l I. apply in_app_or in I. destruct I as [I|I]; [apply in_combine_l in I; contradiction|]. destruct (V2 _ _ I) as [_ EL]. rewrite Nat.sub_0_r in EL. rewrite EJ in EL. injection EL as ->. auto.
Qed.
