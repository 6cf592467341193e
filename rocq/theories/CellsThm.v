(** C46: Cells and Rank call the operand once on each cell, in index order, and the results are the cells of the result. *)
From Verif Require Import Base SqueezeModel TransSpec JoinModel JoinSpec JoinProof2 JoinProof4 MapModel MapSpec JoinProof5 CellsModel CellsSpec CellsProof CellsProof2 CellsProof3 CellsProof7 CellsProof8.
From Coq Require Import Lia ZArith List.
Import ListNotations.
Open Scope nat_scope.
Notation rank a := (length (fst (arr_of a))).
(** 𝔽⎉𝕘 𝕩 and 𝔽˘ 𝕩: cs are the cells, at the indices of the axes before them. What is missing: no cells at all, or 2^32 or more. *)
Theorem C46_rank_partial {A S} amax (box : list nat * list A -> A) fill zero d1 small (op : cop A S) g m a b x s k :
  (2 <= amax < 2 ^ 32)%Z -> exists_val amax x -> sound1 amax op -> gives g m a b -> k = rank x - cell_axes m (rank x) ->
  some_cells (lead k x) -> (op = CDeshape -> k < 255) ->
  exists cs, cells_of k x cs /\ placed amax (lead k x) (calls (call1 box fill op) cs s) (rank_c1 amax box fill zero d1 small op g x s).
Proof.
  intros AM EX SD G EK SC RD. rewrite (rank_1 amax (fun _ => None) box fill zero d1 small op g m a b x s k G EK). apply (one_arg amax (fun _ => None)); try assumption; lia.
Qed.
Print Assumptions C46_rank_partial.
Theorem C46_cells_partial {A S} amax (box : list nat * list A -> A) fill zero d1 small (op : cop A S) x s k :
  (2 <= amax < 2 ^ 32)%Z -> exists_val amax x -> sound1 amax op -> k = Nat.min 1 (rank x) -> some_cells (lead k x) ->
  exists cs, cells_of k x cs /\ placed amax (lead k x) (calls (call1 box fill op) cs s) (cell_c1 amax box fill zero d1 small op x s).
Proof.
  intros AM EX SD EK SC. rewrite (cells_1 amax box fill zero d1 small op x s k EK). apply (one_arg amax (fun _ => None)); try assumption; lia.
Qed.
Print Assumptions C46_cells_partial.
(** 𝕨 𝔽⎉𝕘 𝕩 and 𝕨 𝔽˘ 𝕩: ps are the pairs of cells. The axes before the cells of one argument have to be the first of those of the other. *)
Theorem C46_rank2_partial {A S} amax (box : list nat * list A -> A) idx wt (op : cop2 A S) g m a b w x s j k :
  (2 <= amax < 2 ^ 32)%Z -> exists_val amax w -> exists_val amax x -> sound2 amax op -> gives g m a b ->
  j = rank w - cell_axes a (rank w) -> k = rank x - cell_axes b (rank x) ->
  agree (lead j w) (lead k x) -> some_cells (longer (lead j w) (lead k x)) ->
  (op = CCouple2 -> rank w < 255 /\ (2 * Z.of_nat (length (snd (arr_of w))) < 2 ^ 32)%Z /\ (2 * Z.of_nat (length (snd (arr_of x))) < 2 ^ 32)%Z) ->
  (op = CSelect -> k + rank w <= 255) ->
  exists ps, cell_pairs j k w x ps /\
    placed amax (longer (lead j w) (lead k x)) (calls (fun p => call2 amax idx op (fst p) (snd p)) ps s) (rank_c2 amax idx wt op g w x s).
Proof.
  intros AM EW EX SD G EJ EK AG SC RC RS. rewrite (rank_2 amax idx wt op g m a b w x s j k G EJ EK). apply (two_args amax idx box); try assumption; lia.
Qed.
Print Assumptions C46_rank2_partial.
Theorem C46_cells2_partial {A S} amax (box : list nat * list A -> A) idx wt (op : cop2 A S) w x s j k :
  (2 <= amax < 2 ^ 32)%Z -> exists_val amax w -> exists_val amax x -> sound2 amax op ->
  j = Nat.min 1 (rank w) -> k = Nat.min 1 (rank x) ->
  agree (lead j w) (lead k x) -> some_cells (longer (lead j w) (lead k x)) ->
  (op = CCouple2 -> rank w < 255 /\ (2 * Z.of_nat (length (snd (arr_of w))) < 2 ^ 32)%Z /\ (2 * Z.of_nat (length (snd (arr_of x))) < 2 ^ 32)%Z) ->
  (op = CSelect -> k + rank w <= 255) ->
  exists ps, cell_pairs j k w x ps /\
    placed amax (longer (lead j w) (lead k x)) (calls (fun p => call2 amax idx op (fst p) (snd p)) ps s) (cell_c2 amax idx wt op w x s).
Proof.
  intros AM EW EX SD EJ EK AG SC RC RS. rewrite (cells_2 amax idx wt op w x s j k EJ EK). apply (two_args amax idx box); try assumption; lia.
Qed.
Print Assumptions C46_cells2_partial.
(** otherwise it is an error, before any call *)
Theorem C46_frames_error {A S} amax idx wt (op : cop2 A S) g m a b w x s j k : gives g m a b -> j = rank w - cell_axes a (rank w) -> k = rank x - cell_axes b (rank x) ->
  ~ agree (lead j w) (lead k x) -> rank_c2 amax idx wt op g w x s = Err.
Proof. intros G EJ EK NA. rewrite (rank_2 amax idx wt op g m a b w x s j k G EJ EK). apply disagree; [lia|lia|exact NA]. Qed.
Print Assumptions C46_frames_error.
Theorem C46_cells_frames_error {A S} amax idx wt (op : cop2 A S) w x s :
  ~ agree (lead (Nat.min 1 (rank w)) w) (lead (Nat.min 1 (rank x)) x) -> cell_c2 amax idx wt op w x s = Err.
Proof. intros NA. rewrite (cells_2 amax idx wt op w x s _ _ eq_refl eq_refl). apply disagree; [lia|lia|exact NA]. Qed.
Print Assumptions C46_cells_frames_error.
(** a rank operand that is not one to three whole or infinite numbers is an error *)
Theorem C46_operand_error {A S} amax (box : list nat * list A -> A) fill zero d1 small (op : cop A S) idx wt (op2 : cop2 A S) g w x s : (forall m a b, ~ gives g m a b) ->
  rank_c1 amax box fill zero d1 small op g x s = Err /\ rank_c2 amax idx wt op2 g w x s = Err.
Proof.
  intros N. destruct (rank_operand g) as [(m & a & b & G)|(_ & H)]; [exfalso; exact (N m a b G)|]. unfold rank_c1, rank_c2.
  destruct g as [q|qs|]; [destruct H as (_ & _ & H)|..]; rewrite H; split; reflexivity.
Qed.
Print Assumptions C46_operand_error.

(** ** The primitives that have their own code *)
(** on a cell of shape n‿t, ⊏ ⌽ » and « do what they say; 𝕨⊏ takes whole numbers and counts negative ones from the end *)
Theorem C46_primitives {A S} (box : list nat * list A -> A) fill n t (d : list A) (s : S) : array (n :: t) d ->
  (n <> 0 -> exists r, call1 box fill CFirst (Ar (n :: t) d) s = Ok (Ar t r, s) /\ array t r /\ forall J, inb t J -> elt t r J = elt (n :: t) d (0 :: J)) /\
  (exists r, call1 box fill CReverse (Ar (n :: t) d) s = Ok (Ar (n :: t) r, s) /\ array (n :: t) r /\
     forall i J, i < n -> inb t J -> elt (n :: t) r (i :: J) = elt (n :: t) d (n - 1 - i :: J)) /\
  (forall z, d <> [] -> fill = Some z ->
     (exists r, call1 box fill (CShift false) (Ar (n :: t) d) s = Ok (Ar (n :: t) r, s) /\ array (n :: t) r /\
        forall i J, i < n -> inb t J -> elt (n :: t) r (i :: J) = if i =? 0 then Some z else elt (n :: t) d (i - 1 :: J)) /\
     (exists r, call1 box fill (CShift true) (Ar (n :: t) d) s = Ok (Ar (n :: t) r, s) /\ array (n :: t) r /\
        forall i J, i < n -> inb t J -> elt (n :: t) r (i :: J) = if i =? n - 1 then Some z else elt (n :: t) d (i + 1 :: J))).
Proof.
  intros V. split; [intros N; destruct (pr_first n t d V N) as (r & E & H); exists r; cbn [call1]; rewrite E; exact (conj eq_refl H)|].
  split; [destruct (pr_reverse n t d V) as (r & E & H); exists r; cbn [call1]; rewrite E; exact (conj eq_refl H)|].
  intros z D F. split; [destruct (pr_shift n t d V fill z false D F) as (r & E & H)|destruct (pr_shift n t d V fill z true D F) as (r & E & H)]; exists r; cbn [call1]; rewrite E; exact (conj eq_refl H).
Qed.
Print Assumptions C46_primitives.
Theorem C46_select {A S} amax idx (w : arg A) n t d r (s s' : S) : (amax < 2 ^ 32)%Z -> (forall v z, idx v = Some z -> (- 2 ^ 63 <= z < 2 ^ 63)%Z) ->
  exists_val amax w -> exists_val amax (Ar (n :: t) d) -> call2 amax idx CSelect w (Ar (n :: t) d) s = Ok (r, s') ->
  s' = s /\ fst (arr_of r) = fst (arr_of w) ++ t /\ forall I J, inb (fst (arr_of w)) I -> inb t J ->
    exists v z i, elt (fst (arr_of w)) (snd (arr_of w)) I = Some v /\ idx v = Some z /\ selects n z i /\ elt (fst (arr_of r)) (snd (arr_of r)) (I ++ J) = elt (n :: t) d (i :: J).
Proof.
  intros AM RZ EW EX E. cbn [call2] in E. destruct (p_select amax idx w (Ar (n :: t) d)) as [p| |] eqn:P; try discriminate. cbn [bind] in E. injection E as <- <-.
  destruct (pr_select n t d (proj1 EX) amax idx w p EW P) as (rd' & -> & H). split; [reflexivity|]. cbn [arr_of fst snd]. split; [reflexivity|]. intros I J HI HJ. destruct (H I J HI HJ) as (v & i & Ev & Xi & Li & El).
  unfold index in Xi. destruct (idx v) as [z|] eqn:Z; [|discriminate]. exists v, z, i. split; [exact Ev|]. split; [exact Z|]. split; [|exact El].
  pose proof (ravel_lt _ _ HJ) as RL. destruct EX as (V & _ & LX). unfold valid_arg, array in V. cbn [arr_of fst snd] in V, LX. rewrite size_cons in V.
  assert (N32 : (Z.of_nat n < 2 ^ 32)%Z) by nia. pose proof (RZ v z Z) as R.
  destruct (Z_lt_dec z 0) as [Lz|Lz].
  - destruct (Z_lt_dec (z + Z.of_nat n) 0) as [B|B].
    + rewrite wrap_err in Xi; [discriminate|exact N32|exact R|]. intros k (E & _). destruct (Z.ltb_spec z 0); lia.
    + assert (SL : selects n z (Z.to_nat (z + Z.of_nat n))) by (split; [destruct (Z.ltb_spec z 0); lia|lia]). destruct (wrap_ok z n _ N32 SL) as (_ & W). rewrite W in Xi. cbn [bind] in Xi. rewrite Nat2Z.id in Xi. injection Xi as <-. exact SL.
  - destruct (Z_lt_dec z (Z.of_nat n)) as [B|B].
    + assert (SL : selects n z (Z.to_nat z)) by (split; [destruct (Z.ltb_spec z 0); lia|lia]). destruct (wrap_ok z n _ N32 SL) as (_ & W). rewrite W in Xi. cbn [bind] in Xi. rewrite Nat2Z.id in Xi. injection Xi as <-. exact SL.
    + rewrite wrap_err in Xi; [discriminate|exact N32|exact R|]. intros k (E & L). destruct (Z.ltb_spec z 0); lia.
Qed.
Print Assumptions C46_select.

(** ** The conditions are needed *)
Definition the_max : Z := 2 ^ 31 - 1.
Definition bx (p : list nat * list Z) : Z := 0%Z.
Definition ones (n : nat) : list nat := repeat 1 n.
Lemma ones_size n : size (ones n) = 1.
Proof. induction n as [|n IH]; [reflexivity|]. change (size (ones (Datatypes.S n))) with (1 * size (ones n)). rewrite IH. reflexivity. Qed.
Lemma ones_val n : n <= 255 -> exists_val the_max (Ar (ones n) [7%Z]).
Proof. intros H. split; [unfold valid_arg, array; cbn [arr_of fst snd]; rewrite ones_size; reflexivity|]. cbn [arr_of fst snd]. unfold ones. rewrite repeat_length. split; [exact H|]. cbn [length]. unfold the_max. lia. Qed.
(** ⥊⎉0 on an array of rank 255: the result would be of rank 256, which is not refused *)
Theorem C46_deshape_refuted : exists_val the_max (Ar (ones 255) [7%Z]) /\ gives (GNum (Whole 0)) (Whole 0) (Whole 0) (Whole 0) /\
  rank_c1 the_max bx None 0%Z true true (CDeshape : cop Z unit) (GNum (Whole 0)) (Ar (ones 255) [7%Z]) tt = UB.
Proof. split; [apply ones_val; lia|]. split; [constructor; exact I|]. vm_compute. reflexivity. Qed.
Print Assumptions C46_deshape_refuted.
(** the same for 𝕨≍⎉0 𝕩 with both of rank 255 *)
Theorem C46_couple_refuted : exists_val the_max (Ar (ones 255) [7%Z]) /\
  rank_c2 the_max (fun z => Some z) true (CCouple2 : cop2 Z unit) (GNum (Whole 0)) (Ar (ones 255) [7%Z]) (Ar (ones 255) [7%Z]) tt = UB.
Proof. split; [apply ones_val; lia|]. vm_compute. reflexivity. Qed.
Print Assumptions C46_couple_refuted.
(** and for 𝕨⊏⎉∞‿1 𝕩 *)
Theorem C46_select_refuted : exists_val the_max (Ar [1; 1] [0%Z]) /\ exists_val the_max (Ar (ones 255) [7%Z]) /\ gives (GArr [PInf; Whole 1]) (Whole 1) PInf (Whole 1) /\
  rank_c2 the_max (fun z => Some z) true (CSelect : cop2 Z unit) (GArr [PInf; Whole 1]) (Ar [1; 1] [0%Z]) (Ar (ones 255) [7%Z]) tt = UB.
Proof. split; [repeat split; cbn [arr_of fst snd length]; unfold the_max; lia|]. split; [apply ones_val; lia|]. split; [constructor; exact I|]. vm_compute. reflexivity. Qed.
Print Assumptions C46_select_refuted.
(** 2^32 cells, all of them empty: the number of cells is taken to be 0, and the result has a shape without the elements for it *)
Theorem C46_many_cells_refuted : exists x : arg Z, exists_val the_max x /\ rank x = 3 /\
  forall (f : arg Z -> unit -> res (arg Z * unit)), exists r, rank_c1 the_max bx None 0%Z true true (CGen f) (GNum (Whole 1)) x tt = Ok (r, tt) /\ ~ valid_arr r.
Proof.
  assert (EN : exists n, Z.of_nat n = 65536%Z) by (exists (Z.to_nat 65536); lia). destruct EN as (n & N). exists (Ar [n; n; 0] []).
  split; [split; [unfold valid_arg, array; cbn [arr_of fst snd length size fold_right]; lia|cbn [arr_of fst snd length]; unfold the_max; lia]|]. split; [reflexivity|].
  intros f. exists ([n; n], []). split.
  - unfold rank_c1. cbn [req_whole bind length]. change (cell_rank 3 (Whole 1)) with 1. cbn [Nat.eqb]. change (3 - 1) with 2.
    unfold for_cells_c1. cbn [fst snd firstn].
    assert (U : usz [n; n] = 0).
    { unfold usz, shProd32. cbn [fold_left]. rewrite N. reflexivity. }
    rewrite U. reflexivity.
  - unfold valid_arr, array. cbn [fst snd length size fold_right]. rewrite Nat.mul_1_r. intros E. symmetry in E. apply Nat.mul_eq_0 in E. lia.
Qed.
Print Assumptions C46_many_cells_refuted.

(** ** Cases *)
Definition sum_cell (c : arg Z) (n : nat) : res (arg Z * nat) := Ok (Ar [2] [fold_right Z.add 0%Z (snd (arr_of c)); Z.of_nat n], Datatypes.S n).
Definition fails_at_7 (c : arg Z) (n : nat) : res (arg Z * nat) := match snd (arr_of c) with 7%Z :: _ => Err | _ => Ok (c, Datatypes.S n) end.
Example rank_case : rank_c1 the_max bx None 0%Z true true (CGen sum_cell) (GNum (Whole (-1))) (Ar [2; 3] [1; 2; 3; 4; 5; 6]%Z) 0 = Ok (([2; 2], [6; 0; 15; 1]%Z), 2).
Proof. reflexivity. Qed.
Example rank_case_error : rank_c1 the_max bx None 0%Z true true (CGen fails_at_7) (GNum (Whole 1)) (Ar [2; 3] [1; 2; 3; 7; 5; 6]%Z) 0 = Err. Proof. reflexivity. Qed.
Example first_case : cell_c1 the_max bx None 0%Z true true (CFirst : cop Z nat) (Ar [2; 3] [1; 2; 3; 4; 5; 6]%Z) 0 = Ok (([2], [1; 4]%Z), 0). Proof. reflexivity. Qed.
Example shift_case : cell_c1 the_max bx (Some 0%Z) 0%Z true true (CShift true : cop Z nat) (Ar [2; 3] [1; 2; 3; 4; 5; 6]%Z) 0 = Ok (([2; 3], [2; 3; 0; 5; 6; 0]%Z), 0). Proof. reflexivity. Qed.
Example reverse_case : cell_c1 the_max bx None 0%Z true true (CReverse : cop Z nat) (Ar [2; 3] [1; 2; 3; 4; 5; 6]%Z) 0 = Ok (([2; 3], [3; 2; 1; 6; 5; 4]%Z), 0). Proof. reflexivity. Qed.
Example rank_hyps : (2 <= the_max < 2 ^ 32)%Z /\ exists_val the_max (Ar [2; 3] [1; 2; 3; 4; 5; 6]%Z) /\ sound1 the_max (CGen sum_cell) /\
  gives (GNum (Whole (-1))) (Whole (-1)) (Whole (-1)) (Whole (-1)) /\ some_cells (lead 1 (Ar [2; 3] [1; 2; 3; 4; 5; 6]%Z)).
Proof.
  split; [unfold the_max; lia|]. split; [repeat split; cbn [arr_of fst snd length]; unfold the_max; lia|]. split.
  - intros c s r s' _ E. unfold sum_cell in E. injection E as <- _. repeat split; cbn [arr_of fst snd length]; unfold the_max; lia.
  - split; [constructor; exact I|]. unfold some_cells, lead. cbn. lia.
Qed.
Definition pair_cell (a b : arg Z) (n : nat) : res (arg Z * nat) := Ok (Ar [2] [(fold_right Z.add 0 (snd (arr_of a)) * 100 + fold_right Z.add 0 (snd (arr_of b)))%Z; Z.of_nat n], Datatypes.S n).
(** one axis before the cells of 𝕨, two before those of 𝕩 *)
Example rank2_case : rank_c2 the_max (fun z => Some z) true (CGen2 pair_cell) (GNum (Whole 0)) (Ar [2] [1; 2]%Z) (Ar [2; 2] [3; 4; 5; 6]%Z) 0 =
  Ok (([2; 2; 2], [103; 0; 104; 1; 205; 2; 206; 3]%Z), 4).
Proof. reflexivity. Qed.
Example couple_case : cell_c2 the_max (fun z => Some z) true (CCouple2 : cop2 Z nat) (Ar [2; 2] [1; 2; 3; 4]%Z) (Ar [2; 2] [5; 6; 7; 8]%Z) 0 = Ok (([2; 2; 2], [1; 2; 5; 6; 3; 4; 7; 8]%Z), 0).
Proof. reflexivity. Qed.
Example select_case : rank_c2 the_max (fun z => Some z) true (CSelect : cop2 Z nat) (GNum (Whole 1)) (Ar [2] [2; 0]%Z) (Ar [2; 3] [1; 2; 3; 4; 5; 6]%Z) 0 = Ok (([2; 2], [3; 1; 6; 4]%Z), 0).
Proof. reflexivity. Qed.
Example frames_case : rank_c2 the_max (fun z => Some z) true (CGen2 pair_cell) (GNum (Whole 0)) (Ar [3] [1; 2; 3]%Z) (Ar [2; 2] [3; 4; 5; 6]%Z) 0 = Err. Proof. reflexivity. Qed.
Example rank2_hyps : agree (lead 1 (Ar [2] [1; 2]%Z)) (lead 2 (Ar [2; 2] [3; 4; 5; 6]%Z)) /\ some_cells (longer (lead 1 (Ar [2] [1; 2]%Z)) (lead 2 (Ar [2; 2] [3; 4; 5; 6]%Z))) /\
  sound2 the_max (CGen2 pair_cell) /\ ~ agree (lead 1 (Ar [3] [1; 2; 3]%Z)) (lead 2 (Ar [2; 2] [3; 4; 5; 6]%Z)) /\ (forall m a b, ~ gives (GNum Frac) m a b).
Proof.
  split; [left; exists [2]; reflexivity|]. split; [unfold some_cells; cbn; lia|]. split.
  - intros w x s r s' _ _ E. unfold pair_cell in E. injection E as <- _. repeat split; cbn [arr_of fst snd length]; unfold the_max; lia.
  - split; [intros [[t E]|[t E]]; discriminate|]. intros m a b G. inversion G. contradiction.
Qed.
