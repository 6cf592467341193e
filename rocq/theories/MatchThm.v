(** C16: match looks at the data only. *)
From Verif Require Import Base BitsModel BitsSpec BitsProof TagModel TagSpec TagProof NumSpec NumProof ArrSpec DataSpec SqueezeModel SqueezeSpec SqueezeProof CompareModel CompareSpec CompareProof MatchModel MatchSpec MatchProof MatchProof2.

(** Match never fails on data, reads nothing out of bounds, and answers 1 exactly if the shapes and all elements are the same and no
    element is NaN, whatever element types the two arguments are stored in. *)
Theorem C16_match_exact w x : odata w -> odata x ->
  exists b, equal w x = Ok b /\ (b = true <-> oden w = oden x /\ nan_free (oden w)).
Proof.
  intros W X. destruct (equal_ok false w x W X) as (b&E&H). exists b. split; auto. rewrite H. unfold deq. split; intros [A B]; split; auto. destruct B; [discriminate|auto].
Qed.
Print Assumptions C16_match_exact.

Theorem C16_match_ignores_representation w w' x x' : odata w -> odata w' -> odata x -> odata x' ->
  oden w = oden w' -> oden x = oden x' -> equal w x = equal w' x'.
Proof.
  intros W W' X X' E1 E2. destruct (C16_match_exact w x W X) as (b&E&H). destruct (C16_match_exact w' x' W' X') as (b'&E'&H').
  rewrite E, E'. f_equal. rewrite E1, E2, <- H' in H. destruct b, b'; auto; [symmetry; apply H; auto|apply H; auto].
Qed.
Print Assumptions C16_match_ignores_representation.

Theorem C16_match_refl w : odata w -> nan_free (oden w) -> equal w w = Ok true.
Proof. intros W N. destruct (C16_match_exact w w W W) as (b&E&H). rewrite E. f_equal. apply H. auto. Qed.
Print Assumptions C16_match_refl.
Theorem C16_match_sym w x : odata w -> odata x -> equal w x = equal x w.
Proof.
  intros W X. destruct (C16_match_exact w x W X) as (b&E&H). destruct (C16_match_exact x w X W) as (b'&E'&H'). rewrite E, E'. f_equal.
  assert (Q : oden w = oden x /\ nan_free (oden w) <-> oden x = oden w /\ nan_free (oden x)) by (split; intros [A B]; rewrite A in *; auto).
  rewrite Q, <- H' in H. destruct b, b'; auto; [symmetry; apply H; auto|apply H; auto].
Qed.
Print Assumptions C16_match_sym.
Theorem C16_match_trans x y z : odata x -> odata y -> odata z -> equal x y = Ok true -> equal y z = Ok true -> equal x z = Ok true.
Proof.
  intros X Y Z A B. destruct (C16_match_exact x y X Y) as (b&E&H). destruct (C16_match_exact y z Y Z) as (b'&E'&H'). destruct (C16_match_exact x z X Z) as (c&Ec&Hc).
  assert (b = true) by congruence. assert (b' = true) by congruence. subst. rewrite Ec. f_equal. apply Hc. destruct (proj1 H eq_refl). destruct (proj1 H' eq_refl). split; auto. congruence.
Qed.
Print Assumptions C16_match_trans.

(** The interpreter's own equality (used for fills, caches and constants) is the reflexive variant: it is exactly equality of data. *)
Theorem C16_indistinguishable_exact w x : odata w -> odata x -> exists b, eequal w x = Ok b /\ (b = true <-> oden w = oden x).
Proof.
  intros W X. destruct (equal_ok true w x W X) as (b&E&H). exists b. split; auto. rewrite H. unfold deq. split; [tauto|]. auto.
Qed.
Print Assumptions C16_indistinguishable_exact.

(** Reflexivity without the NaN condition is false. *)
Definition qnan : Z := 0x7FF8000000000000.
Lemma qnan_data : odata (OAtom qnan).
Proof.
  assert (D : den qnan = VNaN) by (vm_compute; reflexivity). split; cbn [ovalid oden plain raw_ok]; rewrite ?D; [split; [unfold word, qnan; lia|discriminate]|]. left; left; auto.
Qed.
Theorem C16_match_refl_refuted : exists w, odata w /\ equal w w = Ok false.
Proof. exists (OAtom qnan). split; [apply qnan_data|vm_compute; reflexivity]. Qed.
Print Assumptions C16_match_refl_refuted.

(** The list 1 0 1 stored four ways; the bit array has garbage after its end. *)
Definition as_bits := OBits [3] [0xFFFFFFFFFFFFFFF5].
Definition as_i8 := OTyped [3] EI8 [1; 0; 1].
Definition as_f64 := OTyped [3] EF64 [of_int 1; 2^63; of_int 1].
Definition as_box := OBox [3] [OAtom (of_int 1); OAtom 0; OAtom (of_int 1)].
Lemma of_int_odata n : Z.abs n < 2^53 -> odata (OAtom (of_int n)).
Proof.
  intros N. destruct (of_int_den n N) as (W&D&S). split; cbn [ovalid oden plain raw_ok]; rewrite ?D. - split; auto. discriminate. - left; right; eauto.
Qed.
Example C16_example_data : odata as_bits /\ odata as_i8 /\ odata as_f64 /\ odata as_box /\ oden as_bits = oden as_i8 /\ oden as_i8 = oden as_f64 /\ oden as_f64 = oden as_box /\ nan_free (oden as_box).
Proof.
  assert (V : oden as_bits = oden as_i8 /\ oden as_i8 = oden as_f64 /\ oden as_f64 = oden as_box /\ nan_free (oden as_box)).
  { split; [vm_compute; reflexivity|]. split; [vm_compute; reflexivity|]. split; [vm_compute; reflexivity|]. unfold as_box. cbn [oden map]. apply nan_free_arr. repeat constructor; vm_compute; discriminate. }
  destruct V as (V1&V2&V3&V4). assert (P : plain (oden as_box)).
  { unfold as_box. cbn [oden map]. apply plain_arr. constructor; [apply (of_int_odata 1); lia|constructor; [apply (of_int_odata 0); lia|constructor; [apply (of_int_odata 1); lia|constructor]]]. }
  assert (O : forall n, Z.abs n < 2^53 -> raw_ok EF64 (of_int n)) by (intros n N; destruct (of_int_den n N) as (W&_&S); split; auto).
  unfold odata. rewrite V1, V2, V3. split; [split; [|exact P]|]; [|split; [split; [|exact P]|]; [|split; [split; [|exact P]|]; [|split; [split; [|exact P]|]; [|tauto]]]].
  - repeat constructor; unfold prod; cbn; lia.
  - cbn [ovalid as_i8]. repeat apply conj; try discriminate; try reflexivity. + repeat constructor; lia. + repeat constructor; cbn [raw_ok]; lia.
  - cbn [ovalid as_f64]. repeat apply conj; try discriminate; try reflexivity. + repeat constructor; lia.
    + constructor; [apply O; lia|constructor; [|constructor; [apply O; lia|constructor]]]. split; [unfold word; lia|]. intros [[E _] _]. vm_compute in E. discriminate.
  - apply ovalid_box. repeat apply conj; try reflexivity. + repeat constructor; lia. + constructor; [apply (of_int_odata 1); lia|constructor; [apply (of_int_odata 0); lia|constructor; [apply (of_int_odata 1); lia|constructor]]].
Qed.
Example C16_example : equal as_bits as_i8 = Ok true /\ equal as_f64 as_bits = Ok true /\ equal as_i8 as_f64 = Ok true /\ equal as_box as_bits = Ok true /\ equal as_f64 as_box = Ok true
  /\ equal as_i8 (OTyped [3; 1] EI8 [1; 0; 1]) = Ok false /\ equal as_i8 (OTyped [3] EC8 [1; 0; 1]) = Ok false /\ equal as_bits (OBits [3] [7]) = Ok false.
Proof. vm_compute. tauto. Qed.
