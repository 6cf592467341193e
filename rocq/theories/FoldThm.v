(** C35 for Fold: the operand applied between the elements from the last to the first. *)
From Verif Require ArithProof2 FoldProof.
From Verif Require Import Base BitsModel BitsSpec SelectModel ArithModel ArithSpec FoldModel FoldSpec FoldProof2 FoldProof3.
From Coq Require Import List Lia.
Open Scope Z_scope.

(** 𝔽´ 𝕩 for a list of numbers: [cv64] and [cv32] are any conversions from double to integer that are right for numbers in range *)
Theorem C35_fold : forall cv64 p x, conv 64 cv64 -> arr_ok x -> 0 < a_ia x < 2 ^ 48 ->
  (p = PLt \/ p = PLe \/ p = PGt \/ p = PGe -> spare x) ->
  exists r, fold_c1 cv64 p x = Ok r /\ fold1 (prim_op p) (vals x) = Some r.
Proof. intros cv64 p x C. apply fold_c1_ok; auto. Qed.
Print Assumptions C35_fold.

(** 𝕨 𝔽´ 𝕩, except for - with ¯2147483648 and an odd number of bits *)
Theorem C35_fold_initial_partial : forall cv64 cv32 p w x, conv 64 cv64 -> conv 32 cv32 -> arr_ok x -> is_double w -> 0 <= a_ia x < 2 ^ 48 ->
  ~ min_odd p w x -> fold_c2 cv64 cv32 p w x = Ok (fold_right (prim_op p) w (vals x)).
Proof. intros cv64 cv32 p w x. intros. apply fold_c2_ok; auto. Qed.
Print Assumptions C35_fold_initial_partial.

(** The remaining case: a signed overflow *)
Theorem C35_fold_negate_overflow_refuted : forall cv64 cv32, conv 32 cv32 ->
  exists w x, arr_ok x /\ is_double w /\ a_ia x = 3 /\ fold_c2 cv64 cv32 (PO OSub) w x = UB /\ fold_right (prim_op (PO OSub)) w (vals x) = 2147483650.
Proof.
  intros cv64 cv32 C. exists (- 2147483648), (AB [5] 3). split. { split; [repeat constructor; vm_compute; congruence|vm_compute; split; congruence]. }
  split. { exists (- 1), 31. vm_compute. repeat split; congruence. } split; [reflexivity|]. split; [|vm_compute; reflexivity].
  destruct (C (- 2147483648)) as [_ E]. unfold fold_c2. rewrite E by (vm_compute; split; congruence). vm_compute. reflexivity.
Qed.
Print Assumptions C35_fold_negate_overflow_refuted.

(** A sum without rounding is the mathematical sum *)
Theorem C35_sum_exact : forall cv64 x b, conv 64 cv64 -> arr_ok x -> 0 < a_ia x < 2 ^ 48 -> Forall (fun z => - b <= z < b) (vals x) -> b * a_ia x <= 2 ^ 53 ->
  fold_c1 cv64 (PO OAdd) x = Ok (fold_right Z.add 0 (vals x)).
Proof.
  intros cv64 x b C X N W B. destruct (fold_c1_ok cv64 C (PO OAdd) x X N) as (r & -> & E); [intros [H|[H|[H|H]]]; discriminate|]. f_equal.
  pose proof (ArithProof2.vals_len x X) as L. destruct (FoldProof.snoc_case (vals x)) as [H|(m & a & H)]; [rewrite H in E; discriminate|]. rewrite H in *. rewrite FoldProof.fold1_snoc in E. injection E as <-. rewrite app_length in L. cbn [length] in L.
  apply Forall_app in W. destruct W as [W A]. inversion A as [|? ? A' _]; subst. rewrite (fold_add_exact b m a W) by nia. rewrite fold_right_app. cbn [fold_right]. clear. replace (a + zsum m) with (zsum m + (a + 0)) by lia. generalize (a + 0). induction m as [|c m IH]; intros z; cbn [zsum fold_right]; [lia|]. rewrite <- IH. lia.
Qed.
Print Assumptions C35_sum_exact.

(** examples *)
Definition cvx (K z : Z) : Z := if (- 2 ^ (K - 1) <=? z) && (z <? 2 ^ (K - 1)) then z else - 2 ^ (K - 1).
Example C35_conv_ex : conv 64 (cvx 64) /\ conv 32 (cvx 32).
Proof.
  split; intros z; unfold cvx; [change (2 ^ (64 - 1)) with 9223372036854775808|change (2 ^ (32 - 1)) with 2147483648];
  match goal with |- context [if ?c then _ else _] => destruct c eqn:E end; lia.
Qed.
Example C35_ok_ex : arr_ok (AB [43690; 0] 17) /\ spare (AB [43690; 0] 17) /\ ~ min_odd (PO OSub) 5 (AB [43690; 0] 17).
Proof. split; [split; [repeat constructor; vm_compute; congruence|vm_compute; split; congruence]|]. split; [vm_compute; reflexivity|]. intros (_ & H & _). discriminate. Qed.
Example C35_minus_bits : fold_c1 (cvx 64) (PO OSub) (AB [43690; 0] 17) = Ok (- 8). Proof. vm_compute. reflexivity. Qed.
Example C35_minus_bits2 : fold_c2 (cvx 64) (cvx 32) (PO OSub) 5 (AB [43690; 0] 17) = Ok (- 13). Proof. vm_compute. reflexivity. Qed.
Example C35_less_bits : fold_c1 (cvx 64) PLt (AB [32768; 0] 17) = Ok 0 /\ fold_c1 (cvx 64) PLt (AB [65536; 0] 17) = Ok 1. Proof. vm_compute. auto. Qed.
Example C35_sum_ex : fold_c1 (cvx 64) (PO OAdd) (AI 8 [100; -128; 3; 5]) = Ok (- 20). Proof. vm_compute. reflexivity. Qed.
Example C35_prod_ex : fold_c1 (cvx 64) (PO OMul) (AI 32 [2147483647; 2147483647; 2147483647]) = fold_c1 (cvx 64) (PO OMul) (AF [2147483647; 2147483647; 2147483647]). Proof. vm_compute. reflexivity. Qed.
