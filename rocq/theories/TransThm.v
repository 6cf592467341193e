(** C26: Transpose and Reorder Axes. *)
From Verif Require Import Base ListLib TransModel TransSpec TransProof TransProof5 TransProof6 TransProof7 TransProof8 TransProof9 TransProof10 TransBitModel TransBitProof.
From Coq Require Import List Arith Lia.
Import ListNotations.
Open Scope nat_scope.

(** ⍉𝕩: the element at (i,I) moves to (I,i). *)
Theorem C26_transpose : forall A xsh (x : list A), array xsh x -> exists rsh r, transp_c1 xsh x = Ok (rsh, r) /\ transposed xsh x rsh r.
Proof. intros. apply transp_ok; auto. Qed.
(** ⍉⁼𝕩 finds the array whose transpose is 𝕩. *)
Theorem C26_transpose_inverse : forall A xsh (x : list A), array xsh x -> exists rsh r, transp_im xsh x = Ok (rsh, r) /\ array rsh r /\ transposed rsh r xsh x.
Proof. intros. apply transp_im_ok; auto. Qed.
(** each undoes the other. *)
Theorem C26_transpose_undo : forall A xsh (x : list A) s r, array xsh x ->
  (transp_c1 xsh x = Ok (s, r) -> transp_im s r = Ok (xsh, x)) /\ (transp_im xsh x = Ok (s, r) -> transp_c1 s r = Ok (xsh, x)).
Proof.
  intros A xsh x s r AX. split; intros E.
  - destruct (transp_ok xsh x AX) as (s' & r' & E' & T). rewrite E in E'. injection E' as <- <-. assert (AR : array s r). { destruct xsh; cbn [transposed] in T; [destruct T as [-> ->]; auto|tauto]. } destruct (transp_im_ok s r AR) as (s2 & r2 & E2 & AX2 & T2). rewrite E2. destruct (transposed_inj _ _ _ _ _ _ AX AX2 T T2) as [-> ->]. auto.
  - destruct (transp_im_ok xsh x AX) as (s' & r' & E' & AR & T). rewrite E in E'. injection E' as <- <-. destruct (transp_ok s r AR) as (s2 & r2 & E2 & T2). rewrite E2. destruct (transposed_fun _ _ _ _ _ _ T T2) as [-> ->]. auto.
Qed.
(** 𝕨⍉𝕩 with a list of axes: whichever of the methods is used (one slice, copying large cells, strided transposes, selecting with computed indices). *)
Theorem C26_reorder : forall A lw isB w xsh (x : list A), array xsh x ->
  (valid w (length xsh) -> exists rsh r, reorder lw isB w xsh x = Ok (rsh, r) /\ reordered w xsh x rsh r) /\ (~ valid w (length xsh) -> reorder lw isB w xsh x = Err).
Proof. intros A lw isB w xsh x AX. split; [apply reorder_ok; auto|apply reorder_err]. Qed.
(** the description determines the result. *)
Theorem C26_reorder_unique : forall A w xsh (x : list A) s r s' r', reordered w xsh x s r -> reordered w xsh x s' r' -> s = s' /\ r = r'.
Proof. intros. eapply reordered_fun; eauto. Qed.
(** 𝕨⍉𝕩 with one axis. *)
Theorem C26_reorder_number : forall A lw isB a xsh (x : list A), array xsh x ->
  (a < length xsh -> exists rsh r, reorder1 lw isB a xsh x = Ok (rsh, r) /\ reordered [a] xsh x rsh r) /\ (length xsh <= a -> reorder1 lw isB a xsh x = Err).
Proof.
  intros A lw isB a xsh x AX. split; [apply reorder1_ok; auto|]. intros H. unfold reorder1. destruct (length xsh <? 1); auto. replace (length xsh <=? a) with true by (symmetry; apply Nat.leb_le; auto). auto.
Qed.
(** 𝕨⍉⁼𝕩 undoes 𝕨⍉𝕩 and the other way around, for 𝕨 without duplicates; it is an error for any other 𝕨. *)
Theorem C26_reorder_undo : forall A lw isB w xsh (x : list A) s r, array xsh x ->
  (NoDup w -> reorder lw isB w xsh x = Ok (s, r) -> transp_ix lw isB w s r = Ok (xsh, x)) /\
  (transp_ix lw isB w xsh x = Ok (s, r) -> reorder lw isB w s r = Ok (xsh, x)) /\
  (NoDup w /\ valid w (length xsh) -> exists s r, transp_ix lw isB w xsh x = Ok (s, r)) /\
  (~ (NoDup w /\ valid w (length xsh)) -> transp_ix lw isB w xsh x = Err).
Proof.
  intros A lw isB w xsh x s r AX. split; [|split; [|split]].
  - intros ND E. destruct (reorder_inv _ _ _ _ _ _ _ AX E) as [V R]. pose proof (rlen _ _ _ _ _ ND V R) as LS. unfold transp_ix. rewrite LS. destruct (invert_ok w (length xsh) ND V) as (v & EV & NDV & VV & _ & IP). rewrite EV. cbn [bind]. pose proof (reordered_array _ _ _ _ _ R) as AR. destruct (reorder_ok lw isB v s r AR) as (s2 & r2 & E2 & R2); [rewrite LS; auto|]. rewrite E2. pose proof (undo_left w v xsh x s r ND NDV V VV IP AX R) as R3. destruct (reordered_fun _ _ _ _ _ _ _ R2 R3) as [-> ->]. auto.
  - unfold transp_ix. intros E. destruct (invert_w w (length xsh)) as [[v|]| |] eqn:EV; try discriminate. cbn [bind] in E. destruct (reorder_inv _ _ _ _ _ _ _ AX E) as [VV R]. destruct (invert_valid _ _ _ _ EV VV) as (ND & NDV & V & IP). pose proof (rlen _ _ _ _ _ NDV VV R) as LS. pose proof (reordered_array _ _ _ _ _ R) as AR. destruct (reorder_ok lw isB w s r AR) as (s2 & r2 & E2 & R2); [rewrite LS; auto|]. rewrite E2. pose proof (undo_left v w xsh x s r NDV ND VV V (invp_sym _ _ _ IP) AX R) as R3. destruct (reordered_fun _ _ _ _ _ _ _ R2 R3) as [-> ->]. auto.
  - intros [ND V]. unfold transp_ix. destruct (invert_ok w (length xsh) ND V) as (v & EV & NDV & VV & _). rewrite EV. cbn [bind]. destruct (reorder_ok lw isB v xsh x AX VV) as (s2 & r2 & E2 & _). eauto.
  - intros N. unfold transp_ix. destruct (invert_w w (length xsh)) as [[v|]| |] eqn:EV; auto; cbn [bind].
    + exfalso. apply N. apply (invert_inv _ _ _ EV).
    + exfalso. unfold invert_w in EV. destruct (length w =? 0) eqn:E0; [discriminate|]. destruct (Nat.ltb_spec (length xsh) (length w)); [discriminate|]. destruct (Forall_dec (fun a => a < length xsh) (fun a => lt_dec a (length xsh)) w) as [F|NF].
      * destruct (ListDec.NoDup_dec Nat.eq_dec w) as [ND|ND]; [apply N; split; auto; apply nodup_valid; auto|]. rewrite inv_fill_dup in EV; auto; [discriminate|apply repeat_length].
      * destruct (inv_fill_big w (length xsh) 0 0 (repeat None (length xsh)) (repeat_length _ _) NF) as [EE|EE]; rewrite EE in EV; discriminate.
Qed.
(** the same with one axis. *)
Theorem C26_reorder_number_undo : forall A lw isB a xsh (x : list A) s r, array xsh x ->
  (reorder1 lw isB a xsh x = Ok (s, r) -> transp_ix1 lw isB a s r = Ok (xsh, x)) /\ (transp_ix1 lw isB a xsh x = Ok (s, r) -> reorder1 lw isB a s r = Ok (xsh, x)).
Proof.
  intros A lw isB a xsh x s r AX. assert (ND1 : NoDup [a]) by (repeat constructor; auto). split; intros E.
  - destruct (Nat.lt_ge_cases a (length xsh)) as [AB|AB]; [|rewrite (proj2 (C26_reorder_number A lw isB a xsh x AX) AB) in E; discriminate]. destruct (reorder1_ok lw isB a xsh x AX AB) as (s' & r' & E' & R). rewrite E in E'. injection E' as <- <-. assert (V1 : valid [a] (length xsh)) by (apply nodup_valid; [auto|cbn; lia|repeat constructor; auto]). pose proof (rlen _ _ _ _ _ ND1 V1 R) as LS. unfold transp_ix1, invert_w1. rewrite LS. replace (length xsh <? 1) with false by (symmetry; apply Nat.ltb_ge; lia). replace (length xsh <=? a) with false by (symmetry; apply Nat.leb_gt; lia). cbn [bind]. assert (EM : map (fun i => i + 1) (seq 0 a) = seq 1 a) by (rewrite <- seq_shift; apply map_ext; intros; lia). rewrite EM. destruct (axes_r1 a (length xsh) AB) as (ND & VV & _). destruct (reorder_ok lw isB (seq 1 a) s r (reordered_array _ _ _ _ _ R)) as (s2 & r2 & E2 & R2); [rewrite LS; auto|]. rewrite E2. pose proof (undo_left _ _ xsh x s r ND1 ND V1 VV (invp1 a _ AB) AX R) as R3. destruct (reordered_fun _ _ _ _ _ _ _ R2 R3) as [-> ->]. auto.
  - unfold transp_ix1, invert_w1 in E. destruct (Nat.ltb_spec (length xsh) 1); [discriminate|]. destruct (Nat.leb_spec (length xsh) a) as [|AB]; [discriminate|]. cbn [bind] in E. assert (EM : map (fun i => i + 1) (seq 0 a) = seq 1 a) by (rewrite <- seq_shift; apply map_ext; intros; lia). rewrite EM in E. destruct (reorder_inv _ _ _ _ _ _ _ AX E) as [VV R]. destruct (axes_r1 a (length xsh) AB) as (ND & _ & _). pose proof (rlen _ _ _ _ _ ND VV R) as LS. assert (V1 : valid [a] (length xsh)) by (apply nodup_valid; [auto|cbn; lia|repeat constructor; auto]). destruct (reorder1_ok lw isB a s r (reordered_array _ _ _ _ _ R)) as (s2 & r2 & E2 & R2); [lia|]. rewrite E2. pose proof (undo_left _ _ xsh x s r ND ND1 VV V1 (invp_sym _ _ _ (invp1 a _ AB)) AX R) as R3. destruct (reordered_fun _ _ _ _ _ _ _ R2 R3) as [-> ->]. auto.
Qed.
(** 𝔽⌾⍉𝕩 and 𝔽⌾(𝕨⊸⍉)𝕩, for any function 𝔽: the result is the array whose transpose is 𝔽 of the transpose of 𝕩, also when 𝔽 changes the shape or the rank. *)
Theorem C26_under : forall A (f : list nat -> list A -> res (list nat * list A)) xsh x, array xsh x -> (forall s r s' r', f s r = Ok (s', r') -> array s' r') ->
  (forall ysh y, transp_uc1 f xsh x = Ok (ysh, y) -> exists s r s' r', transposed xsh x s r /\ f s r = Ok (s', r') /\ transposed ysh y s' r') /\
  (forall lw isB w ysh y, transp_ucw lw isB f w xsh x = Ok (Some (ysh, y)) -> exists s r s' r', reordered w xsh x s r /\ f s r = Ok (s', r') /\ reordered w ysh y s' r').
Proof.
  intros A f xsh x AX FA. split.
  - intros ysh y E. unfold transp_uc1 in E. destruct (transp_ok xsh x AX) as (s & r & E1 & T). rewrite E1 in E. cbn [bind] in E. destruct (f s r) as [[s' r']| |] eqn:EF; try discriminate. cbn [bind] in E. destruct (transp_im_ok s' r' (FA _ _ _ _ EF)) as (s2 & r2 & E2 & _ & T2). rewrite E in E2. injection E2 as <- <-. exists s, r, s', r'. auto.
  - intros lw isB w ysh y E. unfold transp_ucw in E. destruct (invert_w w (length xsh)) as [[v|]| |] eqn:EV; try discriminate. cbn [bind] in E. destruct (reorder lw isB w xsh x) as [[s r]| |] eqn:ER; try discriminate. cbn [bind] in E. destruct (f s r) as [[s' r']| |] eqn:EF; try discriminate. cbn [bind] in E. destruct (reorder lw isB v s' r') as [[s2 r2]| |] eqn:E2; try discriminate. cbn [bind] in E. injection E as <- <-. destruct (reorder_inv _ _ _ _ _ _ _ AX ER) as [_ R]. pose proof (FA _ _ _ _ EF) as AR. destruct (reorder_inv _ _ _ _ _ _ _ AR E2) as [VV R2]. destruct (invert_valid _ _ _ _ EV VV) as (ND & NDV & V & IP). exists s, r, s', r'. split; auto. split; auto. exact (undo_left v w s' r' s2 r2 NDV ND VV V (invp_sym _ _ _ IP) AR R2).
Qed.
(** Two rows of w bits: [x] is the words of the table, [x1] those of its second row; whatever was in the result's memory before and whatever follows the last bit of the rows, bit n of the result is the bit of 𝕩 at row n mod 2, column n÷2. *)
Theorem C26_two_rows_of_bits : forall rp x x1 w, length x = bit_n (2 * w) -> length x1 = bit_n w -> length rp = bit_n (2 * w) -> (forall k, k < w -> wbit x1 k = wbit x (w + k)) ->
  exists r, interleave_bits rp x x1 (2 * w) = Ok r /\ length r = bit_n (2 * w) /\ forall i j, i < 2 -> j < w -> wbit r (ravel [w; 2] [j; i]) = wbit x (ravel [2; w] [i; j]).
Proof.
  intros rp x x1 w LX L1 LR S. destruct (interleave_ok rp x x1 w LX L1 LR S) as (r & E & L & N). exists r. split; auto. split; auto. intros i j I J. cbn [ravel size fold_right]. rewrite !Nat.mul_1_r, !Nat.add_0_r. rewrite N by lia. f_equal. rewrite (Nat.add_comm (j * 2)), Nat.mod_add, Nat.mod_small by lia. rewrite Nat.div_add, Nat.div_small by lia. lia.
Qed.
Print Assumptions C26_transpose.
Print Assumptions C26_transpose_inverse.
Print Assumptions C26_transpose_undo.
Print Assumptions C26_reorder.
Print Assumptions C26_reorder_unique.
Print Assumptions C26_reorder_number.
Print Assumptions C26_reorder_undo.
Print Assumptions C26_reorder_number_undo.
Print Assumptions C26_under.
Print Assumptions C26_two_rows_of_bits.

(** ** concrete cases *)
Example ex_transpose : transp_c1 [2; 3] (seq 10 6) = Ok ([3; 2], [10; 13; 11; 14; 12; 15]). Proof. vm_compute. reflexivity. Qed.
(* cells of 4 doubles: copied *)
Example ex_copy : exists r, reorder 6 false [1; 0] [2; 3; 4] (seq 0 24) = Ok ([3; 2; 4], r) /\ nth (ravel [3; 2; 4] [2; 1; 3]) r 0 = ravel [2; 3; 4] [1; 2; 3] /\ valid [1; 0] 3.
Proof. eexists. split; [vm_compute; reflexivity|]. split; [vm_compute; reflexivity|]. split; [cbn; lia|repeat constructor; cbn; lia]. Qed.
(* three axes, strided transposes *)
Example ex_2d : exists r, reorder 6 false [2; 1; 0] [6; 3; 7] (seq 0 126) = Ok ([7; 3; 6], r) /\ nth (ravel [7; 3; 6] [4; 2; 5]) r 0 = ravel [6; 3; 7] [5; 2; 4].
Proof. eexists. split; [vm_compute; reflexivity|vm_compute; reflexivity]. Qed.
(* a diagonal *)
Example ex_diag : reorder 6 false [0; 0] [3; 4] (seq 0 12) = Ok ([3], [0; 5; 10]) /\ valid [0; 0] 2 /\ ~ valid [0; 2; 0] 3.
Proof. split; [vm_compute; reflexivity|]. split; [split; [cbn; lia|repeat constructor; cbn; lia]|]. intros [_ F]. inversion F as [|a l _ F']; subst. inversion F' as [|b l' B _]; subst. cbn in B. lia. Qed.
(* selection *)
Example ex_sel : reorder 5 true [2; 0] [2; 2; 3] (seq 0 12) = Ok ([2; 3; 2], [0; 6; 1; 7; 2; 8; 3; 9; 4; 10; 5; 11]). Proof. vm_compute. reflexivity. Qed.
Example ex_undo : transp_ix 5 true [2; 0] [2; 3; 2] [0; 6; 1; 7; 2; 8; 3; 9; 4; 10; 5; 11] = Ok ([2; 2; 3], seq 0 12) /\ NoDup [2; 0]. Proof. split; [vm_compute; reflexivity|repeat constructor; cbn; intuition lia]. Qed.
(* rows 1010 and 1101 (first column lowest) in the byte B5 *)
Example ex_bits : exists v, interleave_bits [7%Z] [0xB5%Z] [0xB%Z] 8 = Ok [v] /\ Z.modulo v 256 = 155%Z. Proof. eexists. split; vm_compute; reflexivity. Qed.
