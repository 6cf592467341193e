(** C28: arithmetic on arrays of numbers never wraps. C41: greatest common divisor and least common multiple. *)
From Coq Require Import QArith Qabs Qround.
From Verif Require Import Base BitsModel BitsSpec BitsProof BitsProof2 SqueezeModel SqueezeProof SelectModel SelectProof SelectProof2 ArithModel ArithModel2 ArithSpec ArithProof ArithProof2 ArithProof3 ArithGcd ArithDiv.
From Coq Require Import List Lia.
Open Scope Z_scope.

(** the exact result, and all parts of the computation, are at most 2^53 in magnitude *)
Definition small (o : op) (a b : Z) : Prop :=
  match o with OOr => Z.abs (a + b) <= 2 ^ 53 /\ Z.abs (a * b) <= 2 ^ 53 /\ Z.abs (exact o a b) <= 2 ^ 53 | OMin | OMax => True | _ => Z.abs (exact o a b) <= 2 ^ 53 end.
(** element d is what double arithmetic gives for a and b: the exact result if that is small, else the double nearest to it *)
Definition as_doubles (o : op) (a b d : Z) : Prop :=
  d = dbl_op o a b /\ is_double d /\ (small o a b -> d = exact o a b) /\ (o <> OOr -> nearest (exact o a b) d).

Lemma dbl_as o a b : is_double a -> is_double b -> as_doubles o a b (dbl_op o a b).
Proof.
  intros A B. split; auto. split; [apply dbl_op_double; auto|]. split.
  - destruct o; cbn [small exact dbl_op]; intros S; try (apply rnd_exact; lia).
    + destruct S as (S1 & S2 & S3). rewrite (rnd_exact (a + b)) by lia. rewrite (rnd_exact (a * b)) by lia. rewrite rnd_exact by lia. reflexivity.
    + destruct (b <? a) eqn:E; lia.
    + destruct (b <? a) eqn:E; lia.
  - intros N. destruct o; cbn [exact dbl_op]; try apply rnd_nearest; [congruence| |].
    + assert ((if b <? a then b else a) = Z.min a b) as -> by (destruct (b <? a) eqn:E; lia). split; [destruct (Z.min_spec a b) as [[_ ->]|[_ ->]]; auto|]. intros. lia.
    + assert ((if b <? a then a else b) = Z.max a b) as -> by (destruct (b <? a) eqn:E; lia). split; [destruct (Z.max_spec a b) as [[_ ->]|[_ ->]]; auto|]. intros. lia.
Qed.
(** list r is, place by place, the double arithmetic of the elements of w and x *)
Definition arithmetic (o : op) (w x r : list Z) : Prop :=
  length r = length w /\ forall i a b, nth_error w i = Some a -> nth_error x i = Some b -> exists d, nth_error r i = Some d /\ as_doubles o a b d.
Lemma map2_arith o w x : length w = length x -> Forall is_double w -> Forall is_double x -> arithmetic o w x (map2 (dbl_op o) w x).
Proof.
  intros L W X. split; [unfold map2; rewrite map_length, combine_length; lia|]. revert x L X. induction W as [|a w A W IH]; intros x L X i a' b' Ea Eb; [destruct i; discriminate|].
  destruct X as [|b x B X]; [discriminate|]. destruct i as [|i]; rewrite map2_cons; cbn [nth_error] in *.
  - injection Ea as <-. injection Eb as <-. eexists. split; [reflexivity|]. apply dbl_as; auto.
  - apply (IH x); auto.
Qed.

(** C28, two arrays of the same length, any storage of each *)
Theorem C28_array_array : forall sq o w x, keeps_arr sq -> arr_ok w -> arr_ok x -> length (vals w) = length (vals x) ->
  exists r, arith_AA sq o w x = Ok r /\ arr_ok r /\ arithmetic o (vals w) (vals x) (vals r).
Proof.
  intros sq o w x K W X L. destruct (AA_result sq o w x K W X) as (r & E & O & V); [rewrite <- !vals_len by auto; lia|]. exists r. split; auto. split; auto. rewrite V. apply map2_arith; auto; apply vals_double; auto.
Qed.
Print Assumptions C28_array_array.

(** a number and an array *)
Theorem C28_number_array : forall sq o c x, keeps_arr sq -> is_double c -> arr_ok x ->
  exists r, arith_SA sq o c x = Ok r /\ arr_ok r /\ arithmetic o (repeat c (length (vals x))) (vals x) (vals r).
Proof.
  intros sq o c x K C X. destruct (SA_result sq o c x K C X) as (r & E & O & V). exists r. split; auto. split; auto. rewrite V. apply map2_arith; [apply repeat_length| |apply vals_double; auto]. apply Forall_forall. intros z H. apply repeat_spec in H. subst z. auto.
Qed.
Print Assumptions C28_number_array.

(** an array and a number *)
Theorem C28_array_number : forall sq o w c, keeps_arr sq -> arr_ok w -> is_double c ->
  exists r, arith_AS sq o w c = Ok r /\ arr_ok r /\ arithmetic o (vals w) (repeat c (length (vals w))) (vals r).
Proof.
  intros sq o w c K W C. destruct (AS_result sq o w c K W C) as (r & E & O & V). exists r. split; auto. split; auto. rewrite V. apply map2_arith; [rewrite repeat_length; auto|apply vals_double; auto|]. apply Forall_forall. intros z H. apply repeat_spec in H. subst z. auto.
Qed.
Print Assumptions C28_array_number.

(** sums, differences, minima and maxima of arrays stored as integers are exact: nothing is left of the storage widths *)
Theorem C28_integers_exact : forall sq o w x, keeps_arr sq -> arr_ok w -> arr_ok x -> ints w -> ints x -> length (vals w) = length (vals x) -> o = OAdd \/ o = OSub \/ o = OMin \/ o = OMax ->
  exists r, arith_AA sq o w x = Ok r /\ arr_ok r /\ vals r = map2 (exact o) (vals w) (vals x).
Proof.
  intros sq o w x K W X Iw Ix L H. destruct (AA_result sq o w x K W X) as (r & E & O & V); [rewrite <- !vals_len by auto; lia|]. exists r. split; auto. split; auto. rewrite V. unfold map2. apply map_ext_in. intros [a b] I. cbn [fst snd].
  pose proof (in_combine_l _ _ _ _ I) as Ia. pose proof (in_combine_r _ _ _ _ I) as Ib. apply (ints_range w W Iw) in Ia. apply (ints_range x X Ix) in Ib.
  assert (Sa : is_double a) by (apply small_double; change (2 ^ 53) with 9007199254740992; lia). assert (Sb : is_double b) by (apply small_double; change (2 ^ 53) with 9007199254740992; lia).
  destruct (dbl_as o a b Sa Sb) as (_ & _ & S & _). apply S. destruct H as [-> | [-> | [-> | ->]]]; cbn [small exact]; auto; change (2 ^ 53) with 9007199254740992; lia.
Qed.
Print Assumptions C28_integers_exact.

(** -𝕩, |𝕩, ×𝕩 are exact for every array of whole numbers; ¬𝕩 is 1-𝕩 *)
Theorem C28_monadic : forall sq x, keeps_arr sq -> arr_ok x ->
  (exists r, neg_c1 sq x = Ok r /\ arr_ok r /\ vals r = map Z.opp (vals x)) /\
  (exists r, abs_c1 sq x = Ok r /\ arr_ok r /\ vals r = map Z.abs (vals x)) /\
  (exists r, sign_c1 x = Ok r /\ arr_ok r /\ vals r = map Z.sgn (vals x)) /\
  (exists r, not_c1 sq x = Ok r /\ arr_ok r /\ arithmetic OSub (repeat 1 (length (vals x))) (vals x) (vals r)).
Proof.
  intros sq x K X. split; [apply neg_ok; auto|]. split; [apply abs_ok; auto|]. split; [apply sign_ok; auto|].
  destruct (not_ok sq K x X) as (r & E & O & V). exists r. split; auto. split; auto. change (map (fun e : Z => rnd (1 - e)) (vals x)) with (map (fun e => dbl_op OSub 1 e) (vals x)) in V. rewrite V, <- map2_repeat_l. apply map2_arith; [apply repeat_length| |apply vals_double; auto].
  apply Forall_forall. intros z H. apply repeat_spec in H. subst z. apply small_double. lia.
Qed.
Print Assumptions C28_monadic.

(** modulus and floor of quotient: [r32] and [r64] are the roundings to float and to double. What is assumed of them: the relative error of a number between 2^-64 and 2^64 is at most 2^-24, 2^-53, and whole numbers up to 2^24, 2^53 are exact *)
Definition float_rounding (r32 : Q -> Q) : Prop := rel_err (1 # 16777216) r32 /\ int_exact (1 # 16777216) r32.
Definition double_rounding (r64 : Q -> Q) : Prop := rel_err (1 # 9007199254740992) r64 /\ int_exact (1 # 9007199254740992) r64.

(** m|𝕩 for an integer m≠0 and an array stored as integers: the exact residue, of the sign of m *)
Theorem C28_modulus : forall sq r32 r64 m x, keeps_arr sq -> float_rounding r32 -> double_rounding r64 -> arr_ok x -> ints x -> m <> 0 -> - 2 ^ 31 <= m < 2 ^ 31 ->
  exists r, stile_SA sq r32 r64 m x = Ok r /\ arr_ok r /\ vals r = map (fun e => e mod m) (vals x).
Proof. intros sq r32 r64 m x K [A _] [B _] X I M0 M. change (2 ^ 31) with 2147483648 in M. apply stile_SA_ok; auto. Qed.
Print Assumptions C28_modulus.

(** the same for two arrays *)
Theorem C28_modulus_arrays : forall sq r32 r64 w x, keeps_arr sq -> float_rounding r32 -> double_rounding r64 -> arr_ok w -> arr_ok x -> ints w -> ints x -> length (vals w) = length (vals x) -> (forall m, In m (vals w) -> m <> 0) ->
  exists r, modint_AA sq r32 r64 w x = Ok r /\ arr_ok r /\ vals r = map2 (fun m e => e mod m) (vals w) (vals x).
Proof. intros sq r32 r64 w x K [A1 A2] [B1 B2] W X Iw Ix L NZ. apply modint_AA_ok; auto. Qed.
Print Assumptions C28_modulus_arrays.

(** ⌊𝕨÷𝕩 of integers: the exact floor of the quotient *)
Theorem C28_floor_division : forall sq r32 r64 w, keeps_arr sq -> float_rounding r32 -> double_rounding r64 -> arr_ok w -> ints w ->
  (forall d, d <> 0 -> - 2 ^ 31 <= d < 2 ^ 31 -> exists r, floordiv_AS sq r32 r64 w d = Ok r /\ arr_ok r /\ vals r = map (fun e => e / d) (vals w)) /\
  (forall x, arr_ok x -> ints x -> length (vals w) = length (vals x) -> (forall b, In b (vals x) -> b <> 0) -> exists r, floordiv_AA sq r32 r64 w x = Ok r /\ arr_ok r /\ vals r = map2 Z.div (vals w) (vals x)).
Proof.
  intros sq r32 r64 w K [A1 A2] [B1 B2] W Iw. split.
  - intros d D0 D. change (2 ^ 31) with 2147483648 in D. apply floordiv_AS_ok; auto.
  - intros x X Ix L NZ. apply floordiv_AA_ok; auto.
Qed.
Print Assumptions C28_floor_division.

(** The claim is false for characters: a character plus a large integer, in arrays of 32 bits, overflows a signed integer, which C leaves undefined *)
Theorem C28_character_overflow_refuted : exists c e, 0 <= c <= CHR_MAX /\ - 2 ^ 31 <= e < 2 ^ 31 /\ chr_add c [e] = UB /\ chr_sub [c] [- e] = UB.
Proof. exists 97, 2147483647. vm_compute. repeat split; congruence. Qed.
Print Assumptions C28_character_overflow_refuted.

(** otherwise it is exact, or an error if a result is not a character *)
Theorem C28_character_add_partial : forall c l, 0 <= c <= CHR_MAX -> Forall (fun e => - 2 ^ 31 <= e /\ e + c < 2 ^ 31) l ->
  chr_add c l = if forallb (fun e => (0 <=? e + c) && (e + c <=? CHR_MAX)) l then Ok (map (fun e => e + c) l) else Err.
Proof.
  intros c l C H. change (2 ^ 31) with 2147483648 in H. unfold CHR_MAX in *. induction H as [|e l [E1 E2] H IH]; [reflexivity|]. cbn [chr_add forallb map]. unfold ck. change (2 ^ (32 - 1)) with 2147483648. replace ((- (2147483648) <=? e + c) && (e + c <? 2147483648)) with true by lia. cbn [bind].
  destruct (Z_lt_ge_dec (e + c) 0).
  - replace (to_u 32 (e + c)) with (e + c + 4294967296) by (unfold to_u; change (2 ^ 32) with 4294967296; lia). replace (CHR_MAX <? e + c + 4294967296) with true by (unfold CHR_MAX; lia). replace (0 <=? e + c) with false by lia. reflexivity.
  - rewrite to_u_id by (change (2 ^ 32) with 4294967296; lia). replace (0 <=? e + c) with true by lia. cbn [andb]. unfold CHR_MAX in *. destruct (Z.ltb_spec 1114111 (e + c)).
    + replace (e + c <=? 1114111) with false by lia. reflexivity.
    + replace (e + c <=? 1114111) with true by lia. cbn [andb]. rewrite IH. destruct (forallb _ l); reflexivity.
Qed.
Print Assumptions C28_character_add_partial.

(** C41: •math.GCD is the greatest common divisor, and the result is a double *)
Theorem C41_gcd : forall a b, 0 <= a < 2 ^ 64 -> 0 <= b < 2 ^ 64 -> is_double a -> is_double b ->
  exists g, gcd_u64 a b = Ok g /\ is_double g /\ (g | a) /\ (g | b) /\ forall d, (d | a) -> (d | b) -> (d | g).
Proof.
  intros a b A B Da Db. exists (Z.gcd a b). split; [apply gcd_ok; auto|]. split.
  - destruct (Z.eq_dec a 0) as [->|]; [|apply gcd_double; auto; lia]. rewrite Z.gcd_0_l. replace (Z.abs b) with b by lia. auto.
  - split; [apply Z.gcd_divide_l|]. split; [apply Z.gcd_divide_r|]. intros. apply Z.gcd_greatest; auto.
Qed.
Print Assumptions C41_gcd.

(** •math.LCM is the least common multiple if that is below 2^64 *)
Theorem C41_lcm_partial : forall a b, 0 <= a < 2 ^ 64 -> 0 <= b < 2 ^ 64 -> Z.lcm a b < 2 ^ 64 ->
  exists m, lcm_u64 a b = Ok m /\ (a | m) /\ (b | m) /\ forall k, (a | k) -> (b | k) -> (m | k).
Proof.
  intros a b A B L. exists (Z.lcm a b). rewrite lcm_ok by auto. rewrite to_u_id by (pose proof (Z.lcm_nonneg a b); lia). split; auto. split; [apply Z.divide_lcm_l|]. split; [apply Z.divide_lcm_r|]. intros. apply Z.lcm_least; auto.
Qed.
Print Assumptions C41_lcm_partial.

(** The claim is false beyond: the product wraps, and the result is not a multiple of the arguments, which are exact integers in double arithmetic *)
Theorem C41_lcm_overflow_refuted : exists a b m, 0 < a <= 2 ^ 53 /\ 0 < b <= 2 ^ 53 /\ lcm_u64 a b = Ok m /\ ~ (b | m).
Proof.
  exists (2 ^ 40), (2 ^ 40 - 1). eexists. split; [vm_compute; split; congruence|]. split; [vm_compute; split; congruence|]. split; [vm_compute; reflexivity|].
  intros D. apply Z.mod_divide in D; [|vm_compute; congruence]. vm_compute in D. discriminate.
Qed.
Print Assumptions C41_lcm_overflow_refuted.

(** examples: the hypotheses are met by narrowing that does nothing and by exact division *)
Definition keep (a : arr) : arr := a.
Lemma keep_ok : keeps_arr keep. Proof. intros a H. split; auto. Qed.
Lemma id_rounding u : (0 <= u)%Q -> rel_err u (fun q => q) /\ int_exact u (fun q => q).
Proof.
  intros U. split; [|intros n q _ _; reflexivity]. intros q _. setoid_replace (q - q)%Q with 0%Q by ring. cbn [Qabs]. apply Qmult_le_0_compat; [auto|apply Qabs_nonneg].
Qed.
Example C28_ok_ex : arr_ok (AI 8 [100; -128; 3]) /\ arr_ok (AI 16 [100; 32767; -32768]) /\ arr_ok (AB [5] 3) /\ ints (AI 8 [100; -128; 3]).
Proof. split; [split; [auto|repeat constructor; vm_compute; congruence]|]. split; [split; [auto|repeat constructor; vm_compute; congruence]|]. split; [|exact I]. split; [repeat constructor; vm_compute; congruence|vm_compute; split; congruence]. Qed.
Example C28_add8 : arith_AA keep OAdd (AI 8 [100; -128; 3]) (AI 8 [100; -1; 4]) = Ok (AF [200; -129; 7]). Proof. vm_compute. reflexivity. Qed.
Example C28_add8b : arith_AA keep OAdd (AI 8 [100; -12; 3]) (AI 8 [10; -1; 4]) = Ok (AI 8 [110; -13; 7]). Proof. vm_compute. reflexivity. Qed.
Example C28_mul32 : arith_AA keep OMul (AI 32 [2147483647; -2147483648]) (AI 32 [2147483647; -2147483648]) = Ok (AF [4611686014132420608; 4611686018427387904]). Proof. vm_compute. reflexivity. Qed.
Example C28_mixed : arith_AA keep OSub (AB [5] 3) (AI 16 [-32768; 32767; 1]) = Ok (AF [32769; -32767; 0]). Proof. vm_compute. reflexivity. Qed.
Example C28_orbits : arith_AA keep OOr (AB [5] 3) (AB [3] 3) = Ok (AB [7] 3). Proof. vm_compute. reflexivity. Qed.
Example C28_abs : abs_c1 keep (AI 8 [-128; 5]) = Ok (AF [128; 5]). Proof. vm_compute. reflexivity. Qed.
Example C28_mod : stile_SA keep (fun q => q) (fun q => q) (-7) (AI 8 [-128; 5; 14]) = Ok (AI 16 [-2; -2; 0]). Proof. vm_compute. reflexivity. Qed.
Example C28_mod2 : stile_SA keep (fun q => q) (fun q => q) 256 (AI 8 [-128; 5; 14]) = Ok (AI 16 [128; 5; 14]). Proof. vm_compute. reflexivity. Qed.
Example C28_floor_ex : floordiv_AS keep (fun q => q) (fun q => q) (AI 8 [-128; 5; 14]) (-3) = Ok (AI 16 [42; -2; -5]). Proof. vm_compute. reflexivity. Qed.
Example C28_chr : chr_add 97 [1; 2; 25] = Ok [98; 99; 122] /\ chr_add 97 [-98] = Err. Proof. vm_compute. auto. Qed.
Example C41_gcd_ex : gcd_u64 360360 1617000 = Ok 9240 /\ lcm_u64 21 6 = Ok 42. Proof. vm_compute. auto. Qed.
