(** Proofs about MoveModel: Rotate along several axes. *)
From Coq Require Import List Arith ZArith Bool Lia.
Import ListNotations.
From Verif Require Import Base ListLib SqueezeModel SqueezeProof TransModel TransSpec TransProof TransProof2 TransProof5 MoveModel MoveSpec MoveProof MoveProof2 MoveProof4 MoveProof7.
Open Scope nat_scope.
Definition sg (inv : bool) (w : Z) : Z := if inv then (- w)%Z else w.
Lemma amt_opp w l : 0 < l -> amt (- w) l = if amt w l =? 0 then 0 else l - amt w l.
Proof.
  intros L. pose proof (amt_z w l L) as E. pose proof (amt_z (- w) l L) as E2. destruct (Nat.eqb_spec (amt w l) 0) as [Z0|NZ].
  - rewrite Z.mod_opp_l_z in E2 by lia. lia.
  - rewrite Z.mod_opp_l_nz in E2 by lia. lia.
Qed.
Definition stillp (p : Z * nat) : Prop := amt (fst p) (snd p) = 0.
Lemma sg_still inv p : 0 < snd p -> stillp p -> amt (sg inv (fst p)) (snd p) = 0.
Proof. intros L S. unfold sg. destruct inv; auto. rewrite amt_opp by auto. unfold stillp in S. rewrite S. reflexivity. Qed.
Lemma all_still_iff l : Forall (fun p => 0 < snd p) l -> (all_still l = true <-> Forall stillp l).
Proof.
  induction 1 as [|[w xl] l P F IH]; [split; auto|]. cbn [all_still]. cbn [snd] in P. rewrite wrap_rot_ok by auto. rewrite andb_true_iff, IH. split.
  - intros [E H]. constructor; auto. apply Z.eqb_eq in E. unfold stillp, amt. cbn [fst snd]. rewrite E. reflexivity.
  - intros H. split; [|eapply Forall_inv_tail; eauto]. apply Forall_inv in H. unfold stillp, amt in H. cbn [fst snd] in H. pose proof (Z.mod_pos_bound w (Z.of_nat xl) ltac:(lia)). apply Z.eqb_eq. lia.
Qed.
Lemma rot_skip_ok inv l : forall c, Forall (fun p => 0 < snd p) l -> ~ Forall stillp l -> exists st w l0 rest, l = st ++ (w, l0) :: rest /\ Forall stillp st /\ rot_skip inv l c = Ok (amt (sg inv w) l0, l0, c * shProd (map snd st), rest).
Proof.
  induction l as [|[w xl] l IH]; intros c P NS; [exfalso; apply NS; constructor|]. pose proof (Forall_inv P) as P0. cbn [snd] in P0. cbn [rot_skip]. rewrite wrap_rot_ok by auto. destruct (Z.eqb_spec (w mod Z.of_nat xl) 0) as [E|E].
  - assert (S0 : stillp (w, xl)) by (unfold stillp, amt; cbn [fst snd]; rewrite E; reflexivity). destruct (IH (c * xl) (Forall_inv_tail P)) as (st & w' & l0 & rest & -> & FS & ER); [intros F; apply NS; constructor; auto|]. exists ((w, xl) :: st), w', l0, rest. split; auto. split; [constructor; auto|]. rewrite ER. cbn [map snd]. rewrite shProd_cons, Nat.mul_assoc. reflexivity.
  - exists [], w, xl, l. split; auto. split; [constructor|]. cbn [map]. change (shProd []) with 1. rewrite Nat.mul_1_r. fold (amt w xl). assert (amt w xl <> 0). { pose proof (amt_z w xl P0). lia. } do 3 f_equal. unfold sg. destruct inv; auto. rewrite amt_opp by auto. destruct (Nat.eqb_spec (amt w xl) 0); [lia|reflexivity].
Qed.
Fixpoint rlist (inv : bool) (l : list (Z * nat)) (c : nat) : list (nat * nat * nat) := match l with [] => [] | (w, xl) :: rest => (amt (sg inv w) xl, xl, c) :: rlist inv rest (c * xl) end.
Lemma rlist_rx inv l : forall c, Forall (fun p => 0 < snd p) l -> rx (rlist inv l c).
Proof. unfold rx. induction l as [|[w xl] l IH]; intros c P; cbn [rlist]; constructor. - apply Forall_inv in P. cbn [snd] in P. apply amt_lt. auto. - apply IH. eapply Forall_inv_tail; eauto. Qed.
Lemma rlist_PR inv l : forall c, PR (rlist inv l c) = shProd (map snd l).
Proof. unfold PR. induction l as [|[w xl] l IH]; intros c; auto. cbn [rlist map fst snd]. rewrite !shProd_cons, IH. reflexivity. Qed.
Lemma rot_init_ok inv l : forall c, Forall (fun p => 0 < snd p) l -> rot_init inv l c = (rst (rlist inv l c) 0, X (rlist inv l c) 0).
Proof.
  induction l as [|[w xl] l IH]; intros c P; auto. pose proof (Forall_inv P) as P0. cbn [snd] in P0. cbn [rot_init rlist rst X]. rewrite IH by (eapply Forall_inv_tail; eauto). rewrite wrap_rot_ok by auto. fold (amt w xl).
  assert (E : (if inv && negb (amt w xl =? 0) then xl - amt w xl else amt w xl) = amt (sg inv w) xl). { unfold sg. destruct inv; cbn [andb]; auto. rewrite amt_opp by auto. destruct (Nat.eqb_spec (amt w xl) 0); auto. } rewrite E.
  rewrite Nat.mod_0_l, Nat.div_0_l, Nat.add_0_l by lia. rewrite (Nat.mod_small (amt (sg inv w) xl)) by (apply amt_lt; auto). reflexivity.
Qed.
Lemma turn_app w1 : forall w2 s1 s2 I1 I2, length s1 = length w1 -> length I1 = length w1 -> turn (w1 ++ w2) (s1 ++ s2) (I1 ++ I2) = turn w1 s1 I1 ++ turn w2 s2 I2.
Proof. induction w1 as [|w w1 IH]; intros w2 [|s s1] s2 [|i I1] I2 H1 H2; cbn [length] in *; try lia; auto. cbn [app turn]. f_equal. apply IH; lia. Qed.
Lemma turn_len w : forall s I, length s = length w -> length I = length w -> length (turn w s I) = length w.
Proof. induction w as [|v w IH]; intros [|l s] [|i I] H1 H2; cbn [length turn] in *; try lia. rewrite IH by lia. auto. Qed.
Lemma turn_inb w : forall s I, length s = length w -> inb s I -> inb s (turn w s I).
Proof.
  induction w as [|v w IH]; intros [|l s] I H B; inversion B as [|? i ? I' Bi BI]; subst; cbn [length turn] in *; try lia; auto. constructor; [|apply IH; auto; lia]. pose proof (Z.mod_pos_bound (Z.of_nat i + v) (Z.of_nat l) ltac:(lia)). lia.
Qed.
Lemma turn_still inv q : forall s2 I, Forall stillp q -> inb (map snd q ++ s2) I -> turn (map (sg inv) (map fst q)) (map snd q ++ s2) I = I.
Proof.
  induction q as [|[w l] q IH]; intros s2 I S B; [apply turn_nil|]. cbn [map fst snd app] in *. inversion B as [|? i ? I' Bi BI]; subst. cbn [turn]. rewrite IH by (auto; eapply Forall_inv_tail; eauto). rewrite turn_zero; auto. apply (sg_still inv (w, l)); [cbn [snd]; lia|]. apply (Forall_inv S).
Qed.
Lemma X_turn inv q : forall I s, inb (map snd q) I -> X (rlist inv (rev q) s) (ravel (map snd q) I) = ravel (map snd q) (turn (map (sg inv) (map fst q)) (map snd q) I) * s.
Proof.
  induction q as [|[w l] q IH] using rev_ind; intros I s B; [auto|]. rewrite !map_app in *. cbn [map fst snd] in *. apply Forall2_app_inv_l in B. destruct B as (I1 & I2 & B1 & B2 & ->). change (inb (map snd q) I1) in B1. inversion B2 as [|? i ? I3 Bi B3]; subst. inversion B3; subst. pose proof (inb_len _ _ B1) as LI. rewrite map_length in LI.
  rewrite rev_app_distr. cbn [rev app rlist X]. rewrite turn_app by (rewrite ?map_length; auto). rewrite !ravel_app; [|rewrite turn_len; rewrite ?map_length; auto|rewrite map_length; auto]. cbn [turn ravel]. change (size []) with 1. change (shProd [l]) with (l * 1). rewrite !Nat.mul_1_r, !Nat.add_0_r. destruct (divmod_digit l (ravel (map snd q) I1) i) as [-> ->]; [lia|auto|]. rewrite IH by auto. rewrite turn_amt by auto. lia.
Qed.
Lemma pos3 a b c : 0 < a * (b * c) -> 0 < a /\ 0 < b /\ 0 < c. Proof. destruct a, b, c; lia. Qed.
Section RotL.
Context {A : Type}.
Variables (inv : bool) (x : list A) (q : list (Z * nat)) (w0 : Z) (l0 : nat) (st : list (Z * nat)) (tail : list nat).
Notation osh := (map snd q).
Notation ish := (map snd st ++ tail).
Notation xsh := (osh ++ l0 :: ish).
Notation W := (map (sg inv) (map fst (q ++ (w0, l0) :: st))).
Hypothesis AX : length x = shProd xsh.
Hypothesis NZ : 0 < length x.
Hypothesis ST : Forall stillp st.
Notation c := (shProd ish).
Notation rot0 := (amt (sg inv w0) l0).
Definition wantr (p : nat) : option A := nth_error x (ravel xsh (turn W xsh (unravel xsh p))).
Lemma sizes : 0 < c /\ 0 < l0 /\ 0 < shProd osh /\ length x = shProd osh * (l0 * c).
Proof. pose proof NZ as N. rewrite AX in N. pose proof AX as E. rewrite shProd_app, shProd_cons in N, E. destruct (pos3 _ _ _ N) as (P1 & P2 & P3). auto. Qed.
Notation Xq := (X (rlist inv (rev q) (c * l0))).
Lemma wantK Io m : inb osh Io -> m < l0 * c -> wantr (ravel osh Io * (l0 * c) + m) = nth_error x (Xq (ravel osh Io) + ((m / c + rot0) mod l0) * c + m mod c) /\ Xq (ravel osh Io) + l0 * c <= length x.
Proof.
  intros BO MB. destruct sizes as (C0 & L0 & S0 & SX). rewrite X_turn by auto.
  assert (BT : inb osh (turn (map (sg inv) (map fst q)) osh Io)) by (apply turn_inb; [rewrite !map_length; auto|auto]). pose proof (ravel_lt _ _ BT) as RT. split; [|nia].
  assert (TB : m mod c < c) by (apply Nat.mod_upper_bound; lia). assert (JB : m / c < l0) by (apply Nat.div_lt_upper_bound; lia). destruct (unravel_ok ish _ TB) as [BI EI]. set (Ii := unravel ish (m mod c)) in *. pose proof (Nat.div_mod m c ltac:(lia)) as DM.
  assert (BB : inb xsh (Io ++ m / c :: Ii)) by (apply Forall2_app; [auto|constructor; auto]). assert (LO : length Io = length osh) by (apply inb_len; auto).
  assert (EP : ravel xsh (Io ++ m / c :: Ii) = ravel osh Io * (l0 * c) + m). { rewrite ravel_app by auto. rewrite shProd_cons. cbn [ravel]. change (size ish) with c. rewrite EI. lia. }
  rewrite <- EP. unfold wantr. rewrite unravel_ravel by auto. f_equal. rewrite map_app, map_app. cbn [map fst]. rewrite turn_app by (rewrite ?map_length; rewrite ?map_length in LO; auto). cbn [turn]. rewrite (turn_still inv st tail Ii ST BI). rewrite ravel_app by (rewrite turn_len; rewrite ?map_length; rewrite ?map_length in LO; auto). rewrite shProd_cons. cbn [ravel]. change (size ish) with c. rewrite EI. rewrite turn_amt by auto. lia.
Qed.
Lemma gen_rot : exists r, (do r <- rot_loop (S (length x)) x (c * rot0) (c * (l0 - rot0)) (c * l0) (rst (rlist inv (rev q) (c * l0)) 0) 0 (Xq 0) (repeat None (length x)); done r) = Ok r /\ rotated W xsh x r.
Proof.
  destruct sizes as (C0 & L0 & S0 & SX). pose proof (amt_lt (sg inv w0) l0 L0) as RB. assert (EN : c * rot0 + c * (l0 - rot0) = c * l0) by (rewrite <- Nat.mul_add_distr_l; f_equal; lia).
  assert (EPR : PR (rlist inv (rev q) (c * l0)) = shProd osh) by (rewrite rlist_PR, map_rev, shProd_rev; auto).
  destruct (rot_loop_ok x (length x) (c * rot0) (c * (l0 - rot0)) wantr (rlist inv (rev q) (c * l0))) with (fuel := S (length x)) (K := 0) (r := repeat (@None A) (length x)) as (r & E & IV).
  - apply rlist_rx. apply Forall_rev. clear -S0. induction q as [|[w l] t IH]; constructor; cbn [map snd] in *; rewrite shProd_cons in S0; [nia|apply IH; nia].
  - rewrite EPR, EN, SX. lia.
  - intros K KB. rewrite EPR in KB. destruct (ravel_surj _ _ KB) as (Io & BO & <-). rewrite EN. assert (XB : 0 < l0 * c) by nia. split; [destruct (wantK Io 0 BO XB); lia|]. split.
    + intros k KK. destruct (wantK Io k BO ltac:(nia)) as [E _]. replace (c * l0) with (l0 * c) by lia. rewrite E. f_equal. assert (KD : k / c < l0 - rot0) by (apply Nat.div_lt_upper_bound; lia). rewrite Nat.mod_small by lia. pose proof (Nat.div_mod k c ltac:(lia)). replace (l0 * c) with (c * l0) by lia. lia.
    + intros k KK. destruct (wantK Io (c * (l0 - rot0) + k) BO ltac:(nia)) as [E _]. replace (c * l0) with (l0 * c) by lia. rewrite <- Nat.add_assoc. rewrite E. f_equal. rewrite (Nat.mul_comm c (l0 - rot0)). rewrite Nat.div_add_l by lia. rewrite (Nat.add_comm ((l0 - rot0) * c) k), Nat.mod_add by lia. assert (KD : k / c < rot0) by (apply Nat.div_lt_upper_bound; lia). assert (EM : (l0 - rot0 + k / c + rot0) mod l0 = k / c). { symmetry. apply Nat.mod_unique with (q := 1); lia. } rewrite EM. pose proof (Nat.div_mod k c ltac:(lia)). replace (l0 * c) with (c * l0) by lia. lia.
  - rewrite EPR. auto.
  - rewrite EPR. nia.
  - apply winv0. intros n _. lia.
  - rewrite EN in E. cbn [Nat.mul] in E. rewrite E. cbn [bind]. destruct (wdone _ _ _ IV) as (l & EL & LL & G). exists l. split; auto. split; [unfold array; rewrite LL; exact AX|]. intros J BJ. unfold elt at 1. rewrite G by (rewrite AX; apply ravel_lt; auto). unfold wantr. rewrite unravel_ravel by auto. reflexivity.
Qed.
End RotL.
