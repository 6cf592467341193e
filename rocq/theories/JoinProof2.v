From Verif Require Import Base SqueezeModel TransSpec JoinModel JoinSpec JoinProof.
Open Scope Z_scope.
Section J.
Context {A : Type}.
Notation arr := (list nat * list A)%type.
Implicit Types (P : list arr) (c : arr) (t : list nat).

Lemma compat_sub P Q : compat (P ++ Q) -> compat P.
Proof. intros [t F]. apply Forall_app in F. exists t. apply F. Qed.

Lemma loop_ok (x0 : arr) : forall xs prev s, (forall a, In a (x0 :: prev ++ xs) -> (length (fst a) <= 255)%nat) ->
  (fst x0 = [] -> forall a, In a xs -> (length (fst a) < 255)%nat) ->
  inv (fst x0) (x0 :: prev) s ->
  match join_loop (fst x0) prev (Z.of_nat (length (x0 :: prev))) xs s with
  | Ok s' => inv (fst x0) (x0 :: prev ++ xs) s'
  | Err => ~ compat (x0 :: prev ++ xs)
  | UB => False
  end.
Proof.
  induction xs as [|c xs IH]; intros prev s R R255 I; cbn [join_loop].
  - rewrite app_nil_r. exact I.
  - pose proof (step_ok x0 prev c s) as S.
    assert (H1 : forall a, In a (x0 :: prev) -> (length (fst a) <= 255)%nat).
    { intros a Ha. apply R. destruct Ha as [->|Ha]; [left; reflexivity|right; apply in_or_app; left; exact Ha]. }
    assert (H2 : (length (fst c) <= 255)%nat) by (apply R; right; apply in_or_app; right; left; reflexivity).
    assert (H3 : fst x0 = [] -> (length (fst c) < 255)%nat) by (intros E; apply (R255 E); left; reflexivity).
    specialize (S H1 H2 H3 I).
    destruct (join_step (fst x0) prev (Z.of_nat (length (x0 :: prev))) c s) as [s'| |]; cbn [bind]; [|intros C; apply S|exact S].
    + replace (Z.of_nat (length (x0 :: prev)) + 1) with (Z.of_nat (length (x0 :: prev ++ [c]))) by (cbn [length]; rewrite app_length; cbn [length]; lia).
      specialize (IH (prev ++ [c]) s'). rewrite <- app_assoc in IH. cbn [app] in IH. apply IH; [exact R| |exact S].
      intros E a Ha. apply (R255 E). right; exact Ha.
    + apply (compat_sub _ xs). cbn [app]. rewrite <- app_assoc. exact C.
Qed.
Lemma start_ok (x0 : arr) : (length (fst x0) <= 255)%nat -> inv (fst x0) [x0] (join_start x0).
Proof.
  intros R. unfold join_start. destruct (fst x0) as [|l t] eqn:E.
  - apply (inv_atoms [] [x0]); [constructor; [exact E|constructor]|reflexivity].
  - cbn [length] in *. replace (ur (Z.of_nat (S (length t)))) with (Z.of_nat (S (length t))) by (unfold ur; lia).
    rewrite <- (ncells_list t x0 l t E eq_refl) at 2. rewrite <- (count_1 t x0).
    apply (inv_same _ _ t l); [reflexivity| |lia]. constructor; [exists l; exact E|constructor].
Qed.

Lemma joinable_unique t t' P : joinable t P -> joinable t' P -> t = t'.
Proof.
  intros [F1 E1] [F2 E2]. apply Exists_exists in E1, E2. destruct E1 as (a & Ia & l & Ea), E2 as (b & Ib & l' & Eb).
  rewrite Forall_forall in F1, F2. pose proof (F2 a Ia) as Ga. pose proof (F1 b Ib) as Gb.
  apply fits_len in Ga as La. apply fits_len in Gb as Lb. rewrite Ea in La. rewrite Eb in Lb. cbn [length] in *.
  destruct Ga as [Ga|[k Ga]]; [|congruence]. rewrite <- Ga, Ea in Lb. cbn [length] in Lb. lia.
Qed.
Lemma inv_joinable s0 P s : P <> [] -> inv s0 P s -> j_rm s <> 0 ->
  exists t, joinable t P /\ j_rr s = Z.of_nat (S (length t)) /\ esh_is s0 (j_esh s) t /\ j_cam s = to_u 32 (Z.of_nat (count t P)).
Proof.
  intros NE I N. destruct I as [HA S0|t l0 S0 HA LT|t e E HA X1 X2 LT]; cbn [j_rm j_rr j_esh j_cam] in *; [congruence| |].
  - exists t. repeat split; auto.
    + eapply Forall_impl; [|exact HA]. intros a Ha. right; exact Ha.
    + destruct P as [|a P]; [congruence|]. inversion HA; subst. apply Exists_cons_hd. assumption.
    + cbn [esh_is]. rewrite S0. reflexivity.
  - exists t. repeat split; auto.
Qed.
Lemma inv_atoms_not s0 P s t : inv s0 P s -> j_rm s = 0 -> ~ joinable t P.
Proof.
  intros I N [_ E]. destruct I as [HA S0|? l0 S0 HA LT|? e E' HA X1 X2 LT]; cbn [j_rm] in N; [|lia|lia].
  apply Exists_exists in E. destruct E as (a & Ia & l & Ea). rewrite Forall_forall in HA. rewrite (HA a Ia) in Ea. discriminate.
Qed.

Lemma esh_list_ok s0 e t : esh_is s0 e t -> forall n i, (i + n = length t)%nat -> esh_list s0 e n i = Ok (skipn i t).
Proof.
  intros E. induction n as [|n IH]; intros i Hi; cbn [esh_list].
  - rewrite skipn_all2 by lia. reflexivity.
  - destruct (nth_error t i) as [b|] eqn:Nb; [|apply nth_error_None in Nb; lia].
    rewrite (esh_at_ok _ _ _ _ _ E Nb). cbn [bind]. rewrite IH by lia. cbn [bind]. f_equal.
    clear -Nb. revert i Nb. induction t; intros [|i] Nb; cbn in *; try discriminate; [congruence|auto].
Qed.
Lemma shProd32_eq sh : shProd32 sh = to_u 32 (Z.of_nat (size sh)).
Proof.
  unfold shProd32. assert (G : forall r, fold_left (fun r l => to_u 32 (r * Z.of_nat l)) sh (to_u 32 r) = to_u 32 (r * Z.of_nat (size sh))).
  { induction sh as [|l sh IH]; intros r; cbn [fold_left size fold_right].
    - f_equal. lia.
    - unfold to_u at 2. unfold to_u at 2. rewrite Z.mul_mod_idemp_l by lia. fold (to_u 32 (r * Z.of_nat l)). rewrite IH. f_equal. fold (size sh). lia. }
  specialize (G 1). rewrite Z.mul_1_l in G. exact G.
Qed.
Lemma fits_size t (a : arr) : valid_arr a -> fits t a -> length (snd a) = (ncells t a * size t)%nat.
Proof.
  unfold valid_arr, array. intros V [F|[l F]]; rewrite V, F.
  - rewrite ncells_cell by (rewrite F; reflexivity). lia.
  - rewrite (ncells_list t a l t F eq_refl). reflexivity.
Qed.
Lemma concat_size t P : Forall valid_arr P -> Forall (fits t) P -> length (concat (map snd P)) = (count t P * size t)%nat.
Proof.
  induction P as [|a P IH]; intros V F; [reflexivity|]. inversion V; inversion F; subst. cbn [map concat count fold_right].
  rewrite app_length, (fits_size t a), IH by assumption. unfold count. lia.
Qed.
Lemma apd_tot_ok cap : forall P pos, pos + Z.of_nat (length (concat (map snd P))) = cap -> apd_tot cap pos P = Ok (concat (map snd P)).
Proof.
  induction P as [|a P IH]; intros pos H; cbn [apd_tot map concat] in *.
  - cbn [length] in H. rewrite (proj2 (Z.eqb_eq pos cap)) by lia. reflexivity.
  - rewrite app_length in H. rewrite (proj2 (Z.ltb_ge _ _)) by lia. rewrite IH by lia. reflexivity.
Qed.

Lemma nth_error_mid {B} (l1 l2 l3 : list B) n : (n < length l2)%nat -> nth_error (l1 ++ l2 ++ l3) (length l1 + n) = nth_error l2 n.
Proof. intros H. rewrite nth_error_app2 by lia. rewrite Nat.add_comm, Nat.add_sub. apply nth_error_app1. exact H. Qed.
Lemma ravel_lt sh I : inb sh I -> (ravel sh I < size sh)%nat.
Proof.
  induction 1 as [|l i sh I H _ IH]; cbn [ravel size fold_right]; [lia|]. fold (size sh). nia.
Qed.
Lemma concat_joined t P : Forall valid_arr P -> Forall (fits t) P -> joined t P (count t P :: t, concat (map snd P)).
Proof.
  intros V F. split; [reflexivity|]. split; [unfold valid_arr, array; cbn [fst snd]; rewrite (concat_size t) by assumption; reflexivity|].
  intros pre a post i J EP Hi HJ. cbn [fst snd]. subst P. apply Forall_app in V, F. destruct V as [V1 V2], F as [F1 F2]. inversion V2; inversion F2; subst.
  unfold elt. cbn [ravel]. rewrite map_app, concat_app. cbn [map concat].
  pose proof (ravel_lt t J HJ) as L. pose proof (fits_size t a H1 H5) as SA.
  replace ((count t pre + i) * size t + ravel t J)%nat with (length (concat (map snd pre)) + (i * size t + ravel t J))%nat by (rewrite (concat_size t) by assumption; lia).
  rewrite nth_error_mid by (rewrite SA; nia). unfold cell, elt. destruct H5 as [E|[l E]]; rewrite E.
  - rewrite Nat.eqb_refl. rewrite ncells_cell in Hi by (rewrite E; reflexivity). replace i with 0%nat by lia. reflexivity.
  - cbn [length]. destruct (Nat.eqb_spec (S (length t)) (length t)); [lia|]. reflexivity.
Qed.

Definition Zcap t P : Z := Z.of_nat (count t P) * Z.of_nat (size t).
Theorem join_list_ok amax (x0 : arr) xs t : let P := x0 :: xs in
  Forall valid_arr P -> (forall a, In a P -> (length (fst a) <= 255)%nat) -> (fst x0 = [] -> forall a, In a xs -> (length (fst a) < 255)%nat) ->
  joinable t P -> Z.of_nat (count t P) < 2 ^ 32 -> Zcap t P < 2 ^ 32 ->
  join_list amax x0 xs = if amax <? Zcap t P then Err else Ok (count t P :: t, concat (map snd P)).
Proof.
  intros P V R R255 JB C1 C2. unfold join_list.
  pose proof (loop_ok x0 xs [] (join_start x0)) as L. cbn [app length] in L. change (Z.of_nat 1) with 1 in L.
  assert (I0 : inv (fst x0) [x0] (join_start x0)) by (apply start_ok, R; left; reflexivity).
  specialize (L R R255 I0). fold P in L.
  destruct (join_loop (fst x0) [] 1 xs (join_start x0)) as [s| |]; cbn [bind]; [|exfalso; apply L; exists t; apply JB|destruct L].
  destruct (Z.eqb_spec (j_rm s) 0) as [Z0|NZ]; [exfalso; exact (inv_atoms_not _ _ _ t L Z0 JB)|].
  assert (NEP : P <> []) by (unfold P; discriminate).
  destruct (inv_joinable _ _ _ NEP L NZ) as (t' & J' & RR & ES & CAM). assert (t' = t) by (eapply joinable_unique; eauto). subst t'.
  rewrite RR. replace (Z.to_nat (Z.of_nat (S (length t)) - 1)) with (length t) by lia.
  rewrite (esh_list_ok _ _ t ES) by reflexivity. cbn [bind skipn]. rewrite CAM, shProd32_eq.
  assert (E : to_u 32 (to_u 32 (Z.of_nat (count t P)) * to_u 32 (Z.of_nat (size t))) = Zcap t P).
  { unfold to_u. rewrite <- Z.mul_mod by lia. apply Z.mod_small. fold (Zcap t P). split; [unfold Zcap; lia|exact C2]. }
  rewrite E. replace (to_u 32 (Z.of_nat (count t P))) with (Z.of_nat (count t P)) by (unfold to_u; rewrite Z.mod_small; lia).
  rewrite Nat2Z.id. destruct (amax <? Zcap t P); [reflexivity|].
  pose proof (apd_tot_ok (Zcap t P) P 0) as AO. fold P. rewrite AO; [reflexivity|]. rewrite (concat_size t) by (exact V || apply JB). unfold Zcap. lia.
Qed.
Theorem join_list_err amax (x0 : arr) xs : let P := x0 :: xs in
  (forall a, In a P -> (length (fst a) <= 255)%nat) -> (fst x0 = [] -> forall a, In a xs -> (length (fst a) < 255)%nat) ->
  (forall t, ~ joinable t P) -> join_list amax x0 xs = Err.
Proof.
  intros P R R255 NJ. unfold join_list.
  pose proof (loop_ok x0 xs [] (join_start x0)) as L. cbn [app length] in L. change (Z.of_nat 1) with 1 in L.
  assert (I0 : inv (fst x0) [x0] (join_start x0)) by (apply start_ok, R; left; reflexivity).
  specialize (L R R255 I0). fold P in L.
  destruct (join_loop (fst x0) [] 1 xs (join_start x0)) as [s| |]; cbn [bind]; [|reflexivity|destruct L].
  destruct (Z.eqb_spec (j_rm s) 0) as [Z0|NZ]; [reflexivity|].
  assert (NEP : P <> []) by (unfold P; discriminate).
  destruct (inv_joinable _ _ _ NEP L NZ) as (t' & J' & _). destruct (NJ t' J').
Qed.
(** a total that is a multiple of 2^32: no memory is allocated, and the first element is written outside of it *)
Theorem join_list_wrap amax (x0 : arr) xs t : let P := x0 :: xs in
  (forall a, In a P -> (length (fst a) <= 255)%nat) -> (fst x0 = [] -> forall a, In a xs -> (length (fst a) < 255)%nat) ->
  joinable t P -> 0 <= amax -> (2 ^ 32 | Zcap t P) -> snd x0 <> [] -> join_list amax x0 xs = UB.
Proof.
  intros P R R255 JB AM [k C2] NE. unfold join_list.
  pose proof (loop_ok x0 xs [] (join_start x0)) as L. cbn [app length] in L. change (Z.of_nat 1) with 1 in L.
  assert (I0 : inv (fst x0) [x0] (join_start x0)) by (apply start_ok, R; left; reflexivity).
  specialize (L R R255 I0). fold P in L.
  destruct (join_loop (fst x0) [] 1 xs (join_start x0)) as [s| |]; cbn [bind]; [|exfalso; apply L; exists t; apply JB|destruct L].
  destruct (Z.eqb_spec (j_rm s) 0) as [Z0|NZ]; [exfalso; exact (inv_atoms_not _ _ _ t L Z0 JB)|].
  assert (NEP : P <> []) by (unfold P; discriminate).
  destruct (inv_joinable _ _ _ NEP L NZ) as (t' & J' & RR & ES & CAM). assert (t' = t) by (eapply joinable_unique; eauto). subst t'.
  rewrite RR. replace (Z.to_nat (Z.of_nat (S (length t)) - 1)) with (length t) by lia.
  rewrite (esh_list_ok _ _ t ES) by reflexivity. cbn [bind skipn]. rewrite CAM, shProd32_eq.
  assert (E : to_u 32 (to_u 32 (Z.of_nat (count t P)) * to_u 32 (Z.of_nat (size t))) = 0).
  { unfold to_u. rewrite <- Z.mul_mod by lia. fold (Zcap t P). rewrite C2. apply Z.mod_mul. lia. }
  rewrite E. rewrite (proj2 (Z.ltb_ge amax 0)) by lia. cbn [apd_tot].
  destruct (snd x0) as [|a l]; [congruence|]. rewrite (proj2 (Z.ltb_lt _ _)) by (cbn [length]; lia). reflexivity.
Qed.
End J.
