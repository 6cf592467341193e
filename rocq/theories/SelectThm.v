(** C24: Select with an array of numbers. *)
From Verif Require Import Base BitsModel BitsSpec BitsProof SqueezeModel SlashModel SlashModel2 SlashModel3 SlashSpec SlashThm SelectModel SelectSpec SelectProof SelectProof2.
From Coq Require Import List Lia.

(** For every list of cells and every array of indices, however both are stored, the result lists the cell each index names, negative ones counting from the end; if an index is no whole number or names no cell, it is an error. No element is ever read out of bounds: the result is never [UB]. [sq] is the narrowing of the indices, any function that keeps them. *)
Theorem C24_select_cells : forall (A : Type) sq cl rank1 narrow squoze (w : cnts) (xs : list A),
  keeps sq -> cnts_ok w -> Z.of_nat (length xs) < 2 ^ 62 ->
  (forall r, selection xs (counts w) = Some r -> select_c2 sq cl rank1 narrow squoze w xs = Ok r)
  /\ (selection xs (counts w) = None -> select_c2 sq cl rank1 narrow squoze w xs = Err).
Proof. intros A sq cl rank1 narrow squoze w xs K C X. rewrite select_ok by auto. split; [intros r ->|intros ->]; reflexivity. Qed.
Print Assumptions C24_select_cells.

(** Elements that are single bits: packed words are read and written. [junk] is the previous content of the memory of the result; [wide]: whether the code first widens 𝕩 to bytes. *)
Theorem C24_select_bits : forall sq junk rank1 wide squoze (w : cnts) xp xn,
  keeps sq -> cnts_ok w -> 0 <= xn <= 64 * Z.of_nat (length xp) -> xn < 2 ^ 62 ->
  (forall r, selection (bits_of xp 0 xn) (counts w) = Some r -> select_c2_bitx sq junk rank1 wide squoze w xp xn = Ok r)
  /\ (selection (bits_of xp 0 xn) (counts w) = None -> select_c2_bitx sq junk rank1 wide squoze w xp xn = Err).
Proof. intros sq junk rank1 wide squoze w xp xn K C XL X. rewrite select_bitx_ok by auto. split; [intros r ->|intros ->]; reflexivity. Qed.
Print Assumptions C24_select_bits.

(** what [selection] is: as long as the indices, and at each place the named cell *)
Theorem C24_selection_meaning : forall (A : Type) (xs : list A) is r, selection xs is = Some r <->
  length r = length is /\ (forall i z, nth_error is i = Some z -> exists k v, z = Some k /\ nth_error r i = Some v /\
    ((0 <= k /\ nth_error xs (Z.to_nat k) = Some v) \/ (- Z.of_nat (length xs) <= k < 0 /\ nth_error xs (Z.to_nat (Z.of_nat (length xs) + k)) = Some v))).
Proof.
  intros A xs. assert (ONE : forall e v, cell_of xs e = Some v <-> exists k, e = Some k /\ ((0 <= k /\ nth_error xs (Z.to_nat k) = Some v) \/ (- Z.of_nat (length xs) <= k < 0 /\ nth_error xs (Z.to_nat (Z.of_nat (length xs) + k)) = Some v))).
  { intros [k|] v; cbn [cell_of]; [|split; [discriminate|intros (k & H & _); discriminate]]. unfold cell_at. split.
    - intros H. exists k. split; auto. destruct ((0 <=? k) && (k <? Z.of_nat (length xs))) eqn:E; [left; split; [lia|auto]|]. destruct ((- Z.of_nat (length xs) <=? k) && (k <? 0)) eqn:F; [|discriminate]. right. split; [lia|auto].
    - intros (k' & E & H). injection E as <-. destruct H as [[H N]|[H N]].
      + assert (Z.to_nat k < length xs)%nat by (apply nth_error_Some; congruence). replace ((0 <=? k) && (k <? Z.of_nat (length xs))) with true by lia. exact N.
      + replace ((0 <=? k) && (k <? Z.of_nat (length xs))) with false by lia. replace ((- Z.of_nat (length xs) <=? k) && (k <? 0)) with true by lia. exact N. }
  induction is as [|e is IH]; intros r.
  - cbn. split; [intros H; injection H as <-; split; auto; intros i z N; destruct i; discriminate|]. intros [L _]. destruct r; [auto|discriminate].
  - rewrite sel_cons. split.
    + destruct (cell_of xs e) as [v|] eqn:E; [|discriminate]. destruct (selection xs is) as [r'|] eqn:S; [|discriminate]. intros H. injection H as <-. destruct (proj1 (IH r') eq_refl) as [L S'].
      split; [cbn; lia|]. intros [|i] z N; cbn in N; [|apply S'; auto]. injection N as <-. apply ONE in E. destruct E as (k & -> & E). exists k, v. cbn. auto.
    + intros [L H]. destruct r as [|v r]; [discriminate|]. destruct (H 0%nat e eq_refl) as (k & v' & E & N & C). cbn in N. injection N as <-.
      assert (cell_of xs e = Some v) as ->. { apply ONE. exists k. auto. }
      assert (selection xs is = Some r) as ->; [|reflexivity]. apply IH. split; [cbn in L; lia|]. intros i z N. apply (H (S i) z N).
Qed.
Print Assumptions C24_selection_meaning.

(** The claim is false if the cells have no elements: two or more indices, all out of range, give an empty result instead of an error. One such index is an error. *)
Theorem C24_empty_cells_refuted : exists (w : cnts) (xs : list (list Z)), cnts_ok w /\ Forall (fun c => c = []) xs /\ selection xs (counts w) = None /\
  forall sq rank1 narrow squoze, select_c2_empty_cells sq rank1 narrow squoze w xs = Ok 2.
Proof. exists (CI 8 [5; 6]), [[]; []]. split; [split; [auto|repeat constructor; change (2 ^ (8 - 1)) with 128; lia]|]. split; [repeat constructor|]. split; reflexivity. Qed.
Print Assumptions C24_empty_cells_refuted.

Example C24_select_ex : select_c2 no_sq XTyped true true false (CI 8 [0; -1; 2; -3; 2]) [10; 20; 30] = Ok [10; 30; 30; 10; 30]. Proof. vm_compute. reflexivity. Qed.
Example C24_select_ex2 : select_c2 no_sq XTyped true true false (CI 8 [0; -1; 3]) [10; 20; 30] = Err. Proof. vm_compute. reflexivity. Qed.
(* 300 cells and indices of both signs: 𝕨 is widened *)
Example C24_select_wide : select_c2 no_sq XTyped true true false (CI 8 [5; -128; 127; -1]) (iota 300) = Ok [5; 172; 127; 299]. Proof. vm_compute. reflexivity. Qed.
(* 128 cells and indices of both signs: the offset wraps in 8 bits *)
Example C24_select_wrap8 : select_c2 no_sq XTyped true true false (CI 8 [5; -128; 127; -1]) (iota 128) = Ok [5; 0; 127; 127]. Proof. vm_compute. reflexivity. Qed.
Example C24_select_bitw : select_c2 no_sq XObj true true false (CB [5; 1] 66) [10; 20] = Ok (20 :: 10 :: 20 :: repeat 10 61 ++ [20; 10]). Proof. vm_compute. reflexivity. Qed.
Example C24_select_bitx_ex : select_c2_bitx no_sq 77 true false false (CI 16 (repeat (-1) 70 ++ [0; 1])) [5; 2] 66 = Ok (repeat true 71 ++ [false]). Proof. vm_compute. reflexivity. Qed.
Example C24_select_float : select_c2 no_sq XObj true true false (CF [Some 1; None]) [10; 20] = Err. Proof. vm_compute. reflexivity. Qed.
