(** Take, Drop, Rotate, Reverse, the shifts, Prefixes and Suffixes: what each element of the result is, when there is an error,
    and where the code departs from it. An array is a shape and a list of elements ([array]); [elt sh l I] is the element at index I. *)
From Coq Require Import List Arith ZArith Bool Lia.
Import ListNotations.
From Verif Require Import Base ListLib TransModel TransSpec TransProof TransBitModel TransBitProof MoveModel MoveSpec MoveProof MoveProof4 MoveProof5 MoveProof6 MoveProof8 MoveProof9 RevBitModel RevBitProof.
Open Scope nat_scope.
Definition product (l : list Z) : Z := fold_right Z.mul 1%Z l.
(** * Take *)
(** w↑𝕩: |w| cells, from the start or (w<0) up to the end, outside of 𝕩 the fill. For a result of fewer than 2^32 elements, and
    when there is a fill or it is not needed. *)
Theorem C34_take_number : forall (A : Type) (w : Z) (xsh : list nat) (x : list A) (fill : option A), array xsh x ->
  (Z.abs w < 2 ^ 32)%Z -> (Z.abs w * Z.of_nat (size (tl xsh)) < 2 ^ 32)%Z -> fill <> None \/ (Z.abs w * Z.of_nat (size (tl xsh)) <= Z.of_nat (length x))%Z ->
  exists rsh r, take_num w xsh x fill = Ok (rsh, r) /\ taken [w] xsh x fill rsh r.
Proof. intros A w xsh x fill AX B. change (size (tl xsh)) with (shProd (tl xsh)). rewrite <- csz_tl. intros. apply take_num_ok; auto. lia. Qed.
Print Assumptions C34_take_number.
Example C34_take_number_ex : take_num (-3) [2; 2] [1; 2; 3; 4] (Some 9) = Ok ([3; 2], [9; 9; 1; 2; 3; 4]).
Proof. vm_compute. reflexivity. Qed.
(** otherwise it is an error: never a wrong array, never an access outside of 𝕩 *)
Theorem C34_take_number_error : forall (A : Type) (w : Z) (xsh : list nat) (x : list A) (fill : option A),
  (- 2 ^ 63 < w * Z.of_nat (size (tl xsh)))%Z -> (2 ^ 32 <= Z.abs w * Z.of_nat (size (tl xsh)) \/ fill = None /\ Z.of_nat (length x) < Z.abs w * Z.of_nat (size (tl xsh)))%Z ->
  take_num w xsh x fill = Err.
Proof. intros A w xsh x fill. change (size (tl xsh)) with (shProd (tl xsh)). rewrite <- csz_tl. apply take_num_err. Qed.
Print Assumptions C34_take_number_error.
Example C34_take_number_error_ex : take_num 3 [2] [true; false] None = Err.
Proof. vm_compute. reflexivity. Qed.
(** A list 𝕨: each leading axis taken by its number, 𝕩 first given leading axes of length 1 when 𝕨 has more numbers than it has axes *)
Theorem C34_take : forall (A : Type) (ws : list Z) (xsh : list nat) (x : list A) (fill : option A), 2 <= length ws < 255 -> array xsh x ->
  Forall (fun c => (c < 2 ^ 32)%Z) (lengths take_len ws xsh) -> (product (lengths take_len ws xsh) <= 2 ^ 31 - 1000)%Z ->
  fill <> None \/ product (lengths take_len ws xsh) = 0%Z \/ Forall2 (fun c l => (c <= Z.of_nat l)%Z) (lengths take_len ws xsh) (padded (length ws) xsh) ->
  exists rsh r, takedrop_list true ws xsh x fill = Ok (rsh, r) /\ taken ws xsh x fill rsh r.
Proof.
  intros A ws xsh x fill WL AX LB PB HF. apply (td_ok (A := A) true ws xsh x fill); auto; [|discriminate].
  unfold lengths in LB. assert (EL : length ws <= length (padded (length ws) xsh)) by (unfold padded; rewrite app_length, repeat_length; lia). revert LB EL. generalize (padded (length ws) xsh). clear. induction ws as [|w ws IH]; intros xe LB EL; constructor.
  - destruct xe; [cbn [length] in EL; lia|]. cbn [per_axis] in LB. apply Forall_inv in LB. unfold take_len in LB. lia.
  - destruct xe; [cbn [length] in EL; lia|]. cbn [per_axis length] in *. apply (IH xe); [eapply Forall_inv_tail; eauto|lia].
Qed.
Print Assumptions C34_take.
Example C34_take_ex : takedrop_list true [-3; 1; -3]%Z [2; 2] [1; 2; 3; 4] (Some 0) = Ok ([3; 1; 3], [0; 0; 0; 0; 0; 0; 0; 1; 2]).
Proof. vm_compute. reflexivity. Qed.
Theorem C34_take_error : forall (A : Type) (ws : list Z) (xsh : list nat) (x : list A) (fill : option A), 2 <= length ws < 255 -> array xsh x -> Forall (fun w => (- 2 ^ 63 < w)%Z) ws ->
  (2 ^ 31 - 1000 < product (lengths take_len ws xsh))%Z \/ fill = None /\ product (lengths take_len ws xsh) <> 0%Z /\ (exists i c l, nth_error (lengths take_len ws xsh) i = Some c /\ nth_error (padded (length ws) xsh) i = Some l /\ (Z.of_nat l < c)%Z) ->
  takedrop_list true ws xsh x fill = Err.
Proof.
  intros A ws xsh x fill WL AX WB [H|(F & NZ & i & c & l & E1 & E2 & L)]; [apply td_big; auto|].
  assert (NN : forall ws xe, Forall (fun c => (0 <= c)%Z) (per_axis take_len Z.of_nat ws xe)). { clear. induction ws as [|w ws IH]; intros [|l xe]; cbn [per_axis map]; try constructor; auto; try (unfold take_len; lia); try lia. clear. induction xe; constructor; auto; lia. }
  apply td_nofill; auto.
  - assert (0 <= product (lengths take_len ws xsh))%Z; [|change (zprod (lengths (lenf true) ws xsh)) with (product (lengths take_len ws xsh)); lia]. unfold lengths. specialize (NN ws (padded (length ws) xsh)). clear -NN. induction NN; cbn [product fold_right]; [lia|]. unfold product in *. nia.
  - clear -E1 E2 L. unfold lengths in E1. revert i E1 E2. generalize (padded (length ws) xsh). generalize ws. clear ws. intros ws xe. revert ws. induction xe as [|l0 xe IH]; intros ws i E1 E2; [destruct i; discriminate|]. destruct ws as [|w ws]; cbn [per_axis map axz] in *.
    + destruct i; cbn [nth_error] in *; [injection E1 as <-; injection E2 as <-; lia|]. apply Exists_cons_tl. apply (IH [] i); auto.
    + destruct i; cbn [nth_error] in *; [injection E1 as <-; injection E2 as <-; apply Exists_cons_hd; exact L|]. apply Exists_cons_tl. apply (IH ws i); auto.
Qed.
Print Assumptions C34_take_error.
Example C34_take_error_ex : takedrop_list true [2; 3]%Z [2; 2] [1; 2; 3; 4] None = Err.
Proof. vm_compute. reflexivity. Qed.
(** The full claim, that a result has the lengths that were asked for, is false when there are no elements: a length is cut to
    32 bits, silently. (2⋆32)↑3‿0⥊0 has shape 0‿0, (2⋆32+5)‿0↑… the shape 5‿0. *)
Theorem C34_take_length_refuted : exists (w : Z) (xsh : list nat) (x : list nat) (rsh : list nat) (r : list nat), array xsh x /\ (0 < w < 2 ^ 53)%Z /\ take_num w xsh x (Some 0) = Ok (rsh, r) /\ map Z.of_nat rsh <> lengths take_len [w] xsh.
Proof. exists (2 ^ 32)%Z, [3; 0], [], [0; 0], []. split; [reflexivity|]. split; [lia|]. split; [vm_compute; reflexivity|]. cbn [map]. discriminate. Qed.
Print Assumptions C34_take_length_refuted.
Theorem C34_take_length_list_refuted : exists (ws : list Z) (xsh : list nat) (x : list nat) (rsh : list nat) (r : list nat), array xsh x /\ takedrop_list true ws xsh x (Some 0) = Ok (rsh, r) /\ lengths take_len ws xsh = [2 ^ 32 + 5; 0]%Z /\ rsh = [5; 0].
Proof. exists [2 ^ 32 + 5; 0]%Z, [1; 1], [7], [5; 0], []. repeat split; vm_compute; reflexivity. Qed.
Print Assumptions C34_take_length_list_refuted.
(** * Drop *)
Theorem C34_drop_number : forall (A : Type) (w : Z) (xsh : list nat) (x : list A), array xsh x -> (Z.of_nat (hd 1%nat xsh) < 2 ^ 32)%Z -> (- 2 ^ 63 < w)%Z -> (- 2 ^ 63 < w * Z.of_nat (size (tl xsh)) < 2 ^ 63)%Z ->
  exists rsh r, drop_num w xsh x = Ok (rsh, r) /\ dropped [w] xsh x rsh r.
Proof. intros A w xsh x AX LB WB NB. change (size (tl xsh)) with (shProd (tl xsh)) in NB. rewrite <- csz_tl in NB. apply drop_num_ok; auto. Qed.
Print Assumptions C34_drop_number.
Example C34_drop_number_ex : drop_num (-1) [3; 2] [1; 2; 3; 4; 5; 6] = Ok ([2; 2], [1; 2; 3; 4]) /\ drop_num 5 [3] [1; 2; 3] = Ok ([0], []).
Proof. vm_compute. auto. Qed.
Theorem C34_drop : forall (A : Type) (ws : list Z) (xsh : list nat) (x : list A) (fill : option A), 2 <= length ws < 255 -> array xsh x -> Forall (fun w => (- 2 ^ 63 < w)%Z) ws ->
  Forall (fun l => (Z.of_nat l < 2 ^ 32)%Z) xsh -> (product (lengths drop_len ws xsh) <= 2 ^ 31 - 1000)%Z -> (Z.abs (hd 0%Z ws) * Z.of_nat (size (tl (padded (length ws) xsh))) < 2 ^ 63)%Z ->
  exists rsh r, takedrop_list false ws xsh x fill = Ok (rsh, r) /\ dropped ws xsh x rsh r.
Proof.
  intros A ws xsh x fill WL AX WB SB PB HB. assert (XB : Forall (fun l => (Z.of_nat l < 2 ^ 32)%Z) (padded (length ws) xsh)) by (unfold padded; apply Forall_app; split; auto; apply Forall_forall; intros y IY; apply repeat_spec in IY; subst; lia).
  assert (LE : forall ws xe, Forall2 (fun c l => (c <= Z.of_nat l)%Z) (per_axis drop_len Z.of_nat ws xe) xe). { clear. induction ws as [|w ws IH]; intros [|l xe]; cbn [per_axis map]; constructor; auto; try (unfold drop_len; lia); try lia. clear. induction xe; constructor; auto; lia. }
  destruct (td_ok (A := A) false ws xsh x fill) as (rsh & r & E & EL & M); auto.
  - unfold lengths. specialize (LE ws (padded (length ws) xsh)). change (lenf false) with drop_len. revert XB LE. generalize (per_axis drop_len Z.of_nat ws (padded (length ws) xsh)). generalize (padded (length ws) xsh). clear. induction 2; constructor; auto; [apply Forall_inv in XB; lia|apply IHLE; eapply Forall_inv_tail; eauto].
  - right. right. apply LE.
  - intros _. split; auto. unfold lead. destruct (padded (length ws) xsh); [lia|]. apply (Forall_inv XB).
  - exists rsh, r. split; auto. split; auto. eapply moved_fill; [|exact M]. intros I BI. apply drop_src with (rsh := rsh); auto.
Qed.
Print Assumptions C34_drop.
Example C34_drop_ex : takedrop_list false [-1; 1]%Z [2; 3] [1; 2; 3; 4; 5; 6] None = Ok ([1; 2], [2; 3]).
Proof. vm_compute. reflexivity. Qed.
(** Not without the bounds: ¯2⋆63 is a number both functions accept, and its negation is a signed overflow *)
Theorem C34_drop_lowest_refuted : drop_num (- 2 ^ 63) [3] [1; 2; 3] = UB /\ take_num (- 2 ^ 63) [3] [1; 2; 3] (Some 0) = UB /\ takedrop_list false [- 2 ^ 63; 0]%Z [2; 3] [1; 2; 3; 4; 5; 6] None = UB.
Proof. vm_compute. auto. Qed.
Print Assumptions C34_drop_lowest_refuted.
(** and (2⋆62)↓3‿4⥊0 is an error although the result is the empty 0‿4⥊0 *)
Theorem C34_drop_huge_refuted : exists (w : Z) (xsh : list nat) (x : list nat), array xsh x /\ drop_num w xsh x = Err /\ lengths drop_len [w] xsh = [0; 4]%Z.
Proof. exists (2 ^ 62)%Z, [3; 4], (seq 0 12). repeat split; vm_compute; reflexivity. Qed.
Print Assumptions C34_drop_huge_refuted.
(** * Rotate *)
(** 𝕨⌽𝕩 and 𝕨⌽⁼𝕩 ([inv]) *)
Theorem C34_rotate : forall (A : Type) (inv : bool) (ws : list Z) (xsh : list nat) (x : list A), array xsh x -> length ws <= length xsh -> Forall (fun w => (Z.abs w < 2 ^ 63)%Z) ws ->
  exists r, rotate_list inv ws xsh x = Ok (xsh, r) /\ rotated (map (fun w => if inv then (- w)%Z else w) ws) xsh x r.
Proof. intros. apply rotate_list_ok; auto. Qed.
Print Assumptions C34_rotate.
Theorem C34_rotate_error : forall (A : Type) (inv : bool) (ws : list Z) (xsh : list nat) (x : list A), length xsh < length ws -> rotate_list inv ws xsh x = Err.
Proof. intros. apply rotate_list_err; auto. Qed.
Print Assumptions C34_rotate_error.
Example C34_rotate_ex : rotate_list false [1; -4; 0]%Z [2; 3; 1] [1; 2; 3; 4; 5; 6] = Ok ([2; 3; 1], [6; 4; 5; 3; 1; 2]) /\ rotate_list true [7]%Z [3] [1; 2; 3] = Ok ([3], [3; 1; 2]).
Proof. vm_compute. auto. Qed.
(** what 𝕨⌽ did, 𝕨⌽⁼ undoes *)
Lemma turn_back ws : forall sh I, inb sh I -> inb sh (turn ws sh I) /\ turn (map Z.opp ws) sh (turn ws sh I) = I /\ turn ws sh (turn (map Z.opp ws) sh I) = I.
Proof.
  induction ws as [|w ws IH]; intros sh I B; [cbn [turn map]; auto|]. destruct B as [|l i sh I LI B]; [cbn [turn map]; split; [constructor|auto]|]. cbn [turn map]. destruct (IH sh I B) as (B1 & E1 & E2). pose proof (Z.mod_pos_bound (Z.of_nat i + w) (Z.of_nat l) ltac:(lia)). pose proof (Z.mod_pos_bound (Z.of_nat i + - w) (Z.of_nat l) ltac:(lia)).
  split; [constructor; [lia|exact B1]|]. rewrite !Z2Nat.id by lia. rewrite E1, E2. rewrite !Zplus_mod_idemp_l. replace (Z.of_nat i + w + - w)%Z with (Z.of_nat i) by lia. replace (Z.of_nat i + - w + w)%Z with (Z.of_nat i) by lia. rewrite Z.mod_small by lia. rewrite Nat2Z.id. auto.
Qed.
Lemma array_ext {A} sh (x y : list A) : array sh x -> array sh y -> (forall I, inb sh I -> elt sh x I = elt sh y I) -> x = y.
Proof.
  intros AX AY H. unfold array in *. apply nth_error_ext. intros p. destruct (Nat.lt_ge_cases p (size sh)) as [L|L]; [|rewrite (proj2 (nth_error_None x p)), (proj2 (nth_error_None y p)) by lia; auto].
  destruct (unravel_ok sh p L) as [B E]. specialize (H _ B). unfold elt in H. rewrite E in H. auto.
Qed.
Theorem C34_rotate_undo : forall (A : Type) (inv : bool) (ws : list Z) (xsh : list nat) (x : list A), array xsh x -> length ws <= length xsh -> Forall (fun w => (Z.abs w < 2 ^ 63)%Z) ws ->
  exists r, rotate_list inv ws xsh x = Ok (xsh, r) /\ rotate_list (negb inv) ws xsh r = Ok (xsh, x).
Proof.
  intros A inv ws xsh x AX LW WB. destruct (C34_rotate A inv ws xsh x AX LW WB) as (r & E & [AR R]). exists r. split; auto. destruct (C34_rotate A (negb inv) ws xsh r AR LW WB) as (y & E2 & [AY Y]). rewrite E2. do 2 f_equal. apply (array_ext xsh); auto. intros I B. rewrite Y by auto.
  assert (EW : map (fun w => if negb inv then (- w)%Z else w) ws = map Z.opp (map (fun w => if inv then (- w)%Z else w) ws)). { rewrite map_map. apply map_ext. intros w. destruct inv; cbn [negb]; lia. }
  assert (EV : map (fun w => if inv then (- w)%Z else w) ws = map Z.opp (map (fun w => if negb inv then (- w)%Z else w) ws)). { rewrite map_map. apply map_ext. intros w. destruct inv; cbn [negb]; lia. }
  rewrite R by (apply turn_back; auto). rewrite EW. destruct (turn_back (map (fun w => if inv then (- w)%Z else w) ws) xsh I B) as (_ & _ & ->). reflexivity.
Qed.
Print Assumptions C34_rotate_undo.
(** * Reverse *)
(** [one]: the path for cells of one element *)
Theorem C34_reverse : forall (A : Type) (one : bool) (xsh : list nat) (x : list A), xsh <> [] -> array xsh x -> (one = true -> size (tl xsh) = 1) -> exists r, reverse1 one xsh x = Ok (xsh, r) /\ reversed xsh x r.
Proof. intros. apply reverse_ok; auto. Qed.
Print Assumptions C34_reverse.
Theorem C34_reverse_twice : forall (A : Type) (one : bool) (xsh : list nat) (x : list A), xsh <> [] -> array xsh x -> (one = true -> size (tl xsh) = 1) -> exists r, reverse1 one xsh x = Ok (xsh, r) /\ reverse1 one xsh r = Ok (xsh, x).
Proof.
  intros A one xsh x NE AX O. destruct (C34_reverse A one xsh x NE AX O) as (r & E & [AR R]). exists r. split; auto. destruct (C34_reverse A one xsh r NE AR O) as (y & -> & [AY Y]). do 2 f_equal. apply (array_ext xsh); auto. intros I B. destruct B as [|n i sh I L B]; [congruence|]. rewrite (Y i I n) by (constructor || auto; auto). rewrite (R (n - 1 - i) I n); [|constructor; [lia|auto]|auto]. do 2 f_equal. lia.
Qed.
Print Assumptions C34_reverse_twice.
Example C34_reverse_ex : reverse1 false [3; 2] [1; 2; 3; 4; 5; 6] = Ok ([3; 2], [5; 6; 3; 4; 1; 2]) /\ reverse1 true [3] [1; 2; 3] = Ok ([3], [3; 2; 1]).
Proof. vm_compute. auto. Qed.
(** lists of bits, packed 64 to a word: whatever the new memory held, bit k of the result is bit n-1-k of 𝕩 *)
Theorem C34_reverse_bits : forall (n : nat) (xp rp : list Z), 0 < n -> length xp = bit_n n -> length rp = bit_n n -> exists r, reverse_bits n xp rp = Ok r /\ length r = bit_n n /\ forall k, k < n -> wbit r k = wbit xp (n - 1 - k).
Proof. intros. apply reverse_bits_ok; auto. Qed.
Print Assumptions C34_reverse_bits.
Example C34_reverse_bits_ex : reverse_bits 67 [2 ^ 63 + 1; 3]%Z [5; 7]%Z = Ok [14; 4]%Z.
Proof. vm_compute. reflexivity. Qed.
(** * Shifts *)
(** »𝕩 and «𝕩: the index on the first axis moves by one, the fill comes in *)
Theorem C34_shift : forall (A : Type) (after : bool) (xsh : list nat) (x : list A) (f : A), xsh <> [] -> array xsh x ->
  exists r, (if after then shift_after1 xsh x (Some f) else shift_before1 xsh x (Some f)) = Ok (xsh, r) /\ moved ((if after then 1 else -1)%Z :: map (fun _ => 0%Z) (tl xsh)) xsh x xsh (Some f) r.
Proof. intros. apply shift1_ok; auto. Qed.
Print Assumptions C34_shift.
Theorem C34_shift_error : forall (A : Type) (after : bool) (xsh : list nat) (x : list A), xsh <> [] -> x <> [] -> (if after then shift_after1 xsh x None else shift_before1 xsh x None) = Err.
Proof. intros. apply shift1_err; auto. Qed.
Print Assumptions C34_shift_error.
Example C34_shift_ex : shift_before1 [3] [1; 2; 3] (Some 0) = Ok ([3], [0; 1; 2]) /\ shift_after1 [2; 2] [1; 2; 3; 4] (Some 0) = Ok ([2; 2], [3; 4; 0; 0]) /\ shift_before1 [1; 2] [1; 2] (Some 0) = Ok ([1; 2], [0; 0]).
Proof. vm_compute. auto. Qed.
(** 𝕨»𝕩 and 𝕨«𝕩: the first, or the last, ≠𝕩 cells of 𝕨∾𝕩, or 𝕩∾𝕨; 𝕨 is one cell or an array of cells of that shape *)
Theorem C34_shift_in : forall (A : Type) (wsh : list nat) (w : list A) (xsh : list nat) (x : list A), xsh <> [] -> wsh = tl xsh \/ (exists k, wsh = k :: tl xsh) ->
  shift_before2 wsh w xsh x = Ok (xsh, firstn (length x) (w ++ x)) /\ shift_after2 wsh w xsh x = Ok (xsh, skipn (length w) (x ++ w)).
Proof. intros. split; [apply shift_before2_ok|apply shift_after2_ok]; auto. Qed.
Print Assumptions C34_shift_in.
Theorem C34_shift_in_error : forall (A : Type) (wsh : list nat) (w : list A) (xsh : list nat) (x : list A), xsh <> [] -> wsh <> tl xsh -> (forall k, wsh <> k :: tl xsh) ->
  shift_before2 wsh w xsh x = Err /\ shift_after2 wsh w xsh x = Err.
Proof. intros. apply shift2_err; auto. Qed.
Print Assumptions C34_shift_in_error.
Example C34_shift_in_ex : shift_before2 [2; 2] [7; 8; 9; 10] [3; 2] [1; 2; 3; 4; 5; 6] = Ok ([3; 2], [7; 8; 9; 10; 1; 2]) /\ shift_after2 [] [9] [3] [1; 2; 3] = Ok ([3], [2; 3; 9]) /\ shift_after2 [4] [6; 7; 8; 9] [2] [1; 2] = Ok ([2], [8; 9]).
Proof. vm_compute. auto. Qed.
(** * Prefixes and Suffixes *)
Theorem C34_affixes : forall (A : Type) (post : bool) (n : nat) (sh : list nat) (x : list A), array (n :: sh) x ->
  affixes post (n :: sh) x = Ok (map (fun i => if post then (n - i :: sh, skipn (i * size sh) x) else (i :: sh, firstn (i * size sh) x)) (seq 0 (n + 1))).
Proof. intros. apply affixes_ok; auto. Qed.
Print Assumptions C34_affixes.
Example C34_affixes_ex : affixes false [2] [1; 2] = Ok [([0], []); ([1], [1]); ([2], [1; 2])] /\ affixes true [2] [1; 2] = Ok [([2], [1; 2]); ([1], [2]); ([0], [])].
Proof. vm_compute. auto. Qed.
