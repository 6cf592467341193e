From Verif Require Import Base ListLib TransModel.
From Coq Require Import List Arith Lia.
Open Scope nat_scope.
(** * offsets *)
Definition P (rl : list (nat * nat)) : nat := shProd (map fst rl).
Fixpoint offr (rl : list (nat * nat)) (K : nat) : nat := match rl with [] => 0 | (l, s) :: t => (K mod l) * s + offr t (K / l) end.
Definition F (csz : nat) (rl : list (nat * nat)) (n : nat) : nat := n mod csz + offr rl (n / csz).
Definition pos (rl : list (nat * nat)) : Prop := Forall (fun a => 0 < fst a) rl.
Lemma shProd_app a b : shProd (a ++ b) = shProd a * shProd b. Proof. induction a as [|x a IH]; cbn [shProd fold_right app]; [unfold shProd; lia|]. change (x * shProd (a ++ b) = x * shProd a * shProd b). rewrite IH. lia. Qed.
Lemma shProd_rev a : shProd (rev a) = shProd a. Proof. induction a as [|x a IH]; auto. cbn [rev]. rewrite shProd_app, IH. unfold shProd. cbn [fold_right]. lia. Qed.
Lemma shProd_pos a : Forall (fun l => 0 < l) a -> 0 < shProd a. Proof. induction 1; cbn [shProd fold_right]; [lia|]. change (0 < x * shProd l). nia. Qed.
Lemma shProd_cons x a : shProd (x :: a) = x * shProd a. Proof. reflexivity. Qed.
Lemma P_cons l s t : P ((l, s) :: t) = l * P t. Proof. reflexivity. Qed.
Lemma P_app a b : P (a ++ b) = P a * P b. Proof. unfold P. rewrite map_app. apply shProd_app. Qed.
Lemma P_rev a : P (rev a) = P a. Proof. unfold P. rewrite map_rev. apply shProd_rev. Qed.
Lemma P_pos rl : pos rl -> 0 < P rl. Proof. intros H. apply shProd_pos. apply Forall_map. exact H. Qed.
Lemma pos_app a b : pos (a ++ b) <-> pos a /\ pos b. Proof. apply Forall_app. Qed.
Lemma offr_app a b K : pos a -> offr (a ++ b) K = offr a K + offr b (K / P a).
Proof.
  intros H. revert K. induction H as [|[l s] a L H IH]; intros K; cbn [offr app].
  - change (P []) with 1. rewrite Nat.div_1_r. reflexivity.
  - rewrite IH, P_cons. cbn [fst] in L. rewrite Nat.div_div by (pose proof (P_pos _ H); lia). lia.
Qed.
Lemma mod_split a b n : 0 < a -> 0 < b -> n mod (a * b) = n mod a + a * ((n / a) mod b).
Proof. intros. apply Nat.mod_mul_r; lia. Qed.
Lemma divmod_digit l K k : 0 < l -> k < l -> (K * l + k) mod l = k /\ (K * l + k) / l = K.
Proof. intros. split; [rewrite Nat.add_comm, Nat.mod_add, Nat.mod_small by lia; auto|rewrite Nat.add_comm, Nat.div_add, Nat.div_small by lia; auto]. Qed.
Lemma succ_digit l K : 0 < l -> (K mod l + 1 < l /\ (K + 1) mod l = K mod l + 1 /\ (K + 1) / l = K / l) \/ (K mod l + 1 = l /\ (K + 1) mod l = 0 /\ (K + 1) / l = K / l + 1).
Proof.
  intros L. pose proof (Nat.div_mod K l ltac:(lia)) as E. pose proof (Nat.mod_upper_bound K l ltac:(lia)) as U. destruct (Nat.lt_ge_cases (K mod l + 1) l) as [H|H]; [left|right]; (split; [lia|]).
  - assert (E2 : K + 1 = (K / l) * l + (K mod l + 1)) by lia. rewrite E2. exact (divmod_digit l (K / l) (K mod l + 1) L H).
  - assert (E2 : K + 1 = (K / l + 1) * l + 0) by lia. rewrite E2. destruct (divmod_digit l (K / l + 1) 0) as [X Y]; auto.
Qed.
(** * simplification keeps offsets *)
Lemma offr_one (t : list (nat * nat)) s K : offr ((1, s) :: t) K = offr t K.
Proof. cbn [offr]. rewrite Nat.mod_1_r, Nat.div_1_r. reflexivity. Qed.
Definition szinv (csz sz : nat) (acc : list (nat * nat)) : Prop := match acc with [] => sz = csz | (l, s) :: _ => sz = l * s end.
Lemma F_cell csz l s t n : 0 < csz -> 0 < l -> s = csz -> F (csz * l) t n = F csz ((l, s) :: t) n.
Proof. intros C L ->. unfold F. cbn [offr]. rewrite mod_split, Nat.div_div by lia. lia. Qed.
Lemma offr_merge l' s' l s t K : 0 < l' -> 0 < l -> s = l' * s' -> offr ((l' * l, s') :: t) K = offr ((l', s') :: (l, s) :: t) K.
Proof. intros L' L ->. cbn [offr]. rewrite mod_split, Nat.div_div by lia. ring. Qed.
Lemma simplify_F ax : forall csz sz acc csz' ax', 0 < csz -> pos ax -> pos acc -> szinv csz sz acc -> simplify ax csz sz acc = (csz', ax') ->
  0 < csz' /\ pos ax' /\ csz' * P ax' = csz * P acc * P ax /\ forall n, F csz' (rev ax') n = F csz (rev acc ++ ax) n.
Proof.
  induction ax as [|[l s] ax IH]; intros csz sz acc csz' ax' C PX PA SZ E; cbn [simplify] in E.
  - injection E as <- <-. rewrite app_nil_r. unfold P at 3. cbn. repeat split; auto. lia.
  - pose proof (Forall_inv PX) as L. cbn [fst] in L. pose proof (Forall_inv_tail PX) as PX'. destruct (Nat.eqb_spec l 1) as [->|NL].
    + destruct (IH _ _ _ _ _ C PX' PA SZ E) as (C' & P' & PR & FF). split; auto. split; auto. split; [rewrite PR, P_cons; lia|]. intros n. rewrite FF. unfold F. rewrite !offr_app by (apply Forall_rev; auto). rewrite offr_one. reflexivity.
    + destruct (Nat.eqb_spec s sz) as [->|NS].
      * destruct acc as [|[l' s'] acc].
        -- cbn [szinv] in SZ. subst sz. destruct (IH (csz * l) (csz * l) [] csz' ax') as (C' & P' & PR & FF); auto; [nia|reflexivity|]. split; auto. split; auto. split; [rewrite PR; unfold P at 1 3; cbn [map shProd fold_right]; rewrite P_cons; ring|]. intros n. rewrite FF. cbn [rev app]. apply F_cell; auto.
        -- cbn [szinv] in SZ. pose proof (Forall_inv PA) as L'. cbn [fst] in L'. pose proof (Forall_inv_tail PA) as PA'. destruct (IH csz (sz * l) ((l' * l, s') :: acc) csz' ax') as (C' & P' & PR & FF); auto; [constructor; auto; cbn [fst]; nia|cbn; subst sz; ring|]. split; auto. split; auto. split; [rewrite PR, !P_cons; ring|]. intros n. rewrite FF. unfold F. f_equal. cbn [rev]. rewrite <- !app_assoc. cbn [app]. rewrite !(offr_app (rev acc)) by (apply Forall_rev; auto). rewrite (offr_merge l' s' l sz) by auto. reflexivity.
      * destruct (IH csz (l * s) ((l, s) :: acc) csz' ax') as (C' & P' & PR & FF); auto; [constructor; auto|reflexivity|]. split; auto. split; auto. split; [rewrite PR, !P_cons; ring|]. intros n. rewrite FF. cbn [rev]. rewrite <- app_assoc. reflexivity.
Qed.
(** * the odometer *)
Fixpoint dg (rl : list (nat * nat)) (K : nat) : list (nat * nat * nat) := match rl with [] => [] | (l, s) :: t => (l, s, K mod l) :: dg t (K / l) end.
Lemma dg0 rl : dg rl 0 = map (fun '(l, s) => (l, s, 0)) rl.
Proof. induction rl as [|[l s] rl IH]; auto. cbn [dg map]. destruct l as [|l]; [cbn [Nat.div Nat.modulo]; rewrite IH; reflexivity|]. rewrite Nat.mod_0_l, Nat.div_0_l, IH by lia. reflexivity. Qed.
Lemma offr0 rl : offr rl 0 = 0.
Proof. induction rl as [|[l s] rl IH]; auto. cbn [offr]. destruct l as [|l]; [cbn [Nat.div Nat.modulo]; rewrite IH; reflexivity|]. rewrite Nat.mod_0_l, Nat.div_0_l, IH by lia. reflexivity. Qed.
Lemma bump_ok rl : forall K, pos rl -> K + 1 < P rl -> bump (dg rl K) (offr rl K) = Ok (dg rl (K + 1), offr rl (K + 1)).
Proof.
  induction rl as [|[l s] rl IH]; intros K H B; [unfold P in B; cbn in B; lia|]. pose proof (Forall_inv H) as L. cbn [fst] in L. pose proof (Forall_inv_tail H) as H'. cbn [dg offr bump]. rewrite P_cons in B. destruct (succ_digit l K L) as [(A1 & A2 & A3)|(A1 & A2 & A3)]; rewrite A2, A3.
  - replace (K mod l + 1 <? l) with true by (symmetry; apply Nat.ltb_lt; lia). do 2 f_equal. ring.
  - replace (K mod l + 1 <? l) with false by (symmetry; apply Nat.ltb_ge; lia). replace (K mod l * s + offr rl (K / l) + s) with (l * s + offr rl (K / l)) by (transitivity ((K mod l + 1) * s + offr rl (K / l)); [rewrite A1; ring|ring]). replace (l * s + offr rl (K / l) <? l * s) with false by (symmetry; apply Nat.ltb_ge; lia). replace (l * s + offr rl (K / l) - l * s) with (offr rl (K / l)) by lia. rewrite IH; auto. pose proof (Nat.div_mod K l ltac:(lia)). assert (K / l < P rl) by (apply Nat.div_lt_upper_bound; lia). destruct (Nat.eq_dec (K / l + 1) (P rl)); [|lia]. exfalso. nia.
Qed.
(** * writing the result *)
Lemma loop_inv {T : Type} (I : nat -> T -> Prop) (f : nat -> T -> res T) n : forall i s, (forall k s, i <= k < i + n -> I k s -> exists s', f k s = Ok s' /\ I (k + 1) s') -> I i s -> exists s', loop n i f s = Ok s' /\ I (i + n) s'.
Proof. induction n as [|n IH]; intros i s H I0; cbn [loop]; [rewrite Nat.add_0_r; eauto|]. destruct (H i s ltac:(lia) I0) as (s1 & -> & I1). cbn [bind]. destruct (IH (i + 1) s1) as (s2 & E & I2); auto. - intros k s0 B. apply H. lia. - exists s2. split; auto. replace (i + S n) with (i + 1 + n) by lia. auto. Qed.
Section M.
Context {A : Type}.
Variables (x : list A) (N : nat) (f : nat -> nat).
Hypothesis fb : forall n, n < N -> f n < length x.
Definition inv (r : mem) (W : nat -> Prop) : Prop := length r = N /\ (forall n v, nth_error r n = Some (Some v) -> nth_error x (f n) = Some v) /\ forall n, n < N -> W n -> exists v, nth_error r n = Some (Some v).
Lemma inv_weak r (W W' : nat -> Prop) : (forall n, n < N -> W' n -> W n) -> inv r W -> inv r W'. Proof. intros H (L & G & C). split; auto. Qed.
Lemma inv0 (W : nat -> Prop) : (forall n, n < N -> ~ W n) -> inv (repeat None N) W.
Proof. intros H. split; [apply repeat_length|]. split; [|intros n L w; exfalso; eapply H; eauto]. intros n v E. apply nth_error_In, repeat_spec in E. discriminate. Qed.
Lemma w1 r W n src : inv r W -> n < N -> src = f n -> exists r', (do v <- rd x src; wr r n (Some v)) = Ok r' /\ inv r' (fun m => W m \/ m = n).
Proof.
  intros (L & G & C) LN ->. unfold rd. destruct (nth_error x (f n)) as [v|] eqn:E; [|apply nth_error_None in E; specialize (fb n LN); lia]. cbn [bind]. unfold wr. rewrite L. replace (n <? N) with true by (symmetry; apply Nat.ltb_lt; auto). eexists. split; [reflexivity|]. split; [rewrite upd_length; auto|]. split.
  - intros m u E2. rewrite nth_error_upd, L in E2. destruct (Nat.eqb_spec n m) as [->|NE]; [|apply G; auto]. replace (m <? N) with true in E2 by (symmetry; apply Nat.ltb_lt; auto). congruence.
  - intros m LM [WM| ->]; rewrite nth_error_upd, L; replace (n <? N) with true by (symmetry; apply Nat.ltb_lt; auto). + destruct (Nat.eqb_spec n m); eauto. + rewrite Nat.eqb_refl. eauto.
Qed.
Lemma done_ok r : inv r (fun _ => True) -> exists l, done r = Ok l /\ length l = N /\ forall n, n < N -> nth_error l n = nth_error x (f n).
Proof.
  intros (L & G & C). assert (D : forall (r : mem), (forall n, n < length r -> exists v : A, nth_error r n = Some (Some v)) -> exists l, done r = Ok l /\ r = map Some l).
  { clear. induction r as [|c r IH]; intros H; [exists []; auto|]. destruct (H 0 ltac:(cbn; lia)) as (v & E). cbn in E. injection E as ->. destruct IH as (l & E & ->). { intros n L. apply (H (S n)). cbn [length]. lia. } exists (v :: l). cbn [done]. rewrite E. auto. }
  destruct (D r) as (l & E & ->); [rewrite L; intros n LN; apply C; auto|]. rewrite map_length in L. exists l. split; auto. split; auto. intros n LN. destruct (C n LN I) as (v & EV). rewrite (G n v EV). rewrite nth_error_map in EV. destruct (nth_error l n); cbn in EV; congruence.
Qed.
Lemma copy_ok r W i j n : inv r W -> i + n <= N -> (forall k, k < n -> f (i + k) = j + k) -> exists r', copy r i x j n = Ok r' /\ inv r' (fun m => W m \/ i <= m < i + n).
Proof.
  intros IV B H. unfold copy. destruct (loop_inv (fun k r => inv r (fun m => W m \/ i <= m < i + k)) (fun k r => do v <- rd x (j + k); wr r (i + k) (Some v)) n 0 r) as (r' & E & IV'); [|eapply inv_weak; [|exact IV]; intros m _ [w|]; [auto|lia]|eauto].
  intros k r0 KB IV0. destruct (w1 r0 _ (i + k) (j + k) IV0) as (r1 & E1 & IV1); [lia|symmetry; apply H; lia|]. exists r1. split; auto. eapply inv_weak; [|exact IV1]. intros m _ [w|Q]; [left; left; exact w|]. destruct (Nat.eq_dec m (i + k)); [right; auto|left; right; lia].
Qed.
Lemma tran_ok r W ro xo bw bh w h : inv r W -> (forall xi y, xi < bw -> y < bh -> ro + (xi * h + y) < N /\ f (ro + (xi * h + y)) = xo + (y * w + xi)) -> exists r', transpose_T r ro x xo bw bh w h = Ok r' /\ inv r' (fun m => W m \/ exists xi y, xi < bw /\ y < bh /\ m = ro + (xi * h + y)).
Proof.
  intros IV H. unfold transpose_T. destruct (bh <? bw).
  - destruct (loop_inv (fun y r => inv r (fun m => W m \/ exists xi y', xi < bw /\ y' < y /\ m = ro + (xi * h + y'))) (fun y r => loop bw 0 (fun xi r => tran1 r ro x xo w h xi y) r) bh 0 r) as (r' & E & IV'); [|eapply inv_weak; [|exact IV]; intros m _ [w0|(xi & y & _ & Q & _)]; [auto|lia]|rewrite E; eauto].
    intros y r0 YB IV0. destruct (loop_inv (fun xi r => inv r (fun m => (W m \/ exists xi y', xi < bw /\ y' < y /\ m = ro + (xi * h + y')) \/ exists xi', xi' < xi /\ m = ro + (xi' * h + y))) (fun xi r => tran1 r ro x xo w h xi y) bw 0 r0) as (r1 & E1 & IV1); [|eapply inv_weak; [|exact IV0]; intros m _ [w0|(xi & Q & _)]; [auto|lia]|].
    + intros xi r2 XB IV2. destruct (H xi y) as [H1 H2]; [lia|lia|]. destruct (w1 r2 _ _ _ IV2 H1 (eq_sym H2)) as (r3 & E3 & IV3). exists r3. split; auto. eapply inv_weak; [|exact IV3]. intros m _ [w0|(xi' & Q & EM)]; [left; left; exact w0|]. destruct (Nat.eq_dec xi' xi); [subst; right; auto|left; right; exists xi'; split; [lia|auto]].
    + exists r1. split; auto. eapply inv_weak; [|exact IV1]. intros m _ [w0|(xi & y' & Q1 & Q2 & EM)]; [auto|]. destruct (Nat.eq_dec y' y); [subst; right; eauto|left; right; exists xi, y'; repeat split; auto; lia].
  - destruct (loop_inv (fun xi r => inv r (fun m => W m \/ exists xi' y', xi' < xi /\ y' < bh /\ m = ro + (xi' * h + y'))) (fun xi r => loop bh 0 (fun y r => tran1 r ro x xo w h xi y) r) bw 0 r) as (r' & E & IV'); [|eapply inv_weak; [|exact IV]; intros m _ [w0|(xi & y & Q & _ & _)]; [auto|lia]|rewrite E; eauto].
    intros xi r0 XB IV0. destruct (loop_inv (fun y r => inv r (fun m => (W m \/ exists xi' y', xi' < xi /\ y' < bh /\ m = ro + (xi' * h + y')) \/ exists y', y' < y /\ m = ro + (xi * h + y'))) (fun y r => tran1 r ro x xo w h xi y) bh 0 r0) as (r1 & E1 & IV1); [|eapply inv_weak; [|exact IV0]; intros m _ [w0|(y & Q & _)]; [auto|lia]|].
    + intros y r2 YB IV2. destruct (H xi y) as [H1 H2]; [lia|lia|]. destruct (w1 r2 _ _ _ IV2 H1 (eq_sym H2)) as (r3 & E3 & IV3). exists r3. split; auto. eapply inv_weak; [|exact IV3]. intros m _ [w0|(y' & Q & EM)]; [left; left; exact w0|]. destruct (Nat.eq_dec y' y); [subst; right; auto|left; right; exists y'; split; [lia|auto]].
    + exists r1. split; auto. eapply inv_weak; [|exact IV1]. intros m _ [w0|(xi' & y' & Q1 & Q2 & EM)]; [auto|]. destruct (Nat.eq_dec xi' xi); [subst; right; eauto|left; right; exists xi', y'; repeat split; auto; lia].
Qed.
End M.
