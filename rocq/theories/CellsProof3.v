(** Proofs about CellsModel: the special cases of one argument. *)
From Verif Require Import Base SqueezeModel TransSpec JoinModel JoinSpec JoinProof JoinProof2 JoinProof4 MapModel MapSpec MapProof MapProof2 MapProof4 CellsModel CellsSpec CellsProof CellsProof2.
From Coq Require Import Lia ZArith.
Open Scope nat_scope.
Section P.
Context {A S : Type}.
Notation jarr := (list nat * list A)%type.
Variables (amax : Z) (box : jarr -> A) (fill : option A).
Hypothesis (AM1 : (1 <= amax)%Z) (AM : (amax < 2 ^ 32)%Z).
Notation call1 := (@call1 A S box fill).
Lemma concat_blocks_len n m (d : list A) : length d = n * m -> length (concat (rev (blocks n m d))) = n * m.
Proof.
  intros H. rewrite blocks_slices. transitivity (length (concat (map (fun i => firstn m (skipn (i * m) d)) (seq 0 n)))); [|rewrite concat_slices by exact H; exact H].
  generalize (map (fun i => firstn m (skipn (i * m) d)) (seq 0 n)). intros l. clear. induction l as [|a l IH]; [reflexivity|].
  cbn [rev concat]. rewrite concat_app, !app_length, IH. cbn [concat]. rewrite app_nil_r. lia.
Qed.
Lemma call1_sound (op : cop A S) c s r s' : sound1 amax op -> exists_val amax c -> call1 op c s = Ok (r, s') -> exists_val amax r.
Proof.
  intros SD EX E. destruct op as [f| | | | | | |after| |v]; cbn [CellsModel.call1 sound1] in E, SD.
  - eapply SD; [exact EX|exact E].
  - injection E as <- _. exact EX.
  - injection E as <- _. split; [reflexivity|]. cbn [arr_of fst snd length]. split; lia.
  - destruct c as [v|[|[|n] t] d]; try discriminate. cbn [p_first bind] in E. injection E as <- _. destruct EX as (V & R & L). unfold valid_arg, array in V. cbn [arr_of fst snd] in V, R, L.
    rewrite size_cons in V. change (fst (Nat.divmod (length d) n 0 n)) with (length d / Datatypes.S n). rewrite (div_cell _ _ _ V) by lia.
    assert (X : length (firstn (size t) d) = size t) by (rewrite firstn_length; nia).
    split; [exact X|]. cbn [arr_of fst snd]. rewrite X. cbn [length] in R. split; [lia|nia].
  - unfold p_pick in E. destruct (snd (unarg c)); [discriminate|]. cbn [bind] in E. injection E as <- _. split; [reflexivity|]. cbn [arr_of fst snd length]. split; lia.
  - unfold p_couple in E. rewrite unarg_arr in E. destruct (Nat.leb_spec 255 (length (fst (arr_of c)))); [discriminate|]. cbn [bind] in E. injection E as <- _.
    destruct EX as (V & R & L). unfold valid_arg, array in V. split; [|split]; [unfold valid_arg, array; cbn [arr_of fst snd]; rewrite size_cons, Nat.mul_1_l; exact V|cbn [arr_of fst snd length]; lia|exact L].
  - unfold p_deshape in E. rewrite unarg_arr in E. cbn [bind] in E. injection E as <- _.
    destruct EX as (V & R & L). split; [|split]; [unfold valid_arg, array; cbn [arr_of fst snd size fold_right]; lia|cbn [arr_of fst snd length]; lia|exact L].
  - destruct c as [v|[|n t] d]; try discriminate. cbn [p_shift] in E. destruct EX as (V & R & L).
    destruct (Nat.eqb_spec (length d) 0) as [Z0|Z0]. { cbn [bind] in E. injection E as <- _. repeat split; assumption. }
    destruct fill as [z|]; [|discriminate]. cbn [bind] in E. injection E as <- _. unfold valid_arg, array in V. cbn [arr_of fst snd] in V, R, L.
    rewrite size_cons in V. assert (n <> 0) by nia. assert (D : length d / n = size t) by (exact (div_cell _ _ _ V ltac:(assumption))).
    rewrite D. assert (M : size t <= length d) by (rewrite V; destruct n; [congruence|nia]).
    assert (X : length (if after then skipn (size t) d ++ repeat z (size t) else repeat z (size t) ++ firstn (length d - size t) d) = length d).
    { destruct after; rewrite app_length, repeat_length, ?skipn_length, ?firstn_length; lia. }
    split; [|split]; unfold valid_arg, array; cbn [arr_of fst snd]; rewrite ?X, ?size_cons; [exact V|exact R|exact L].
  - destruct c as [v|[|n t] d]; try discriminate. cbn [p_reverse bind] in E. injection E as <- _. destruct EX as (V & R & L). unfold valid_arg, array in V. cbn [arr_of fst snd] in V, R, L.
    rewrite size_cons in V.
    assert (X : length (concat (rev (blocks n (length d / n) d))) = length d).
    { destruct n as [|n]; [destruct d; [reflexivity|cbn [length] in V; lia]|]. rewrite (div_cell _ _ _ V) by lia. rewrite concat_blocks_len by exact V. lia. }
    split; [|split]; unfold valid_arg, array; cbn [arr_of fst snd]; rewrite ?X, ?size_cons; [exact V|exact R|exact L].
  - injection E as <- _. exact SD.
Qed.
Variables (sh : list nat) (d : list A) (k : nat) (s : S).
Let x : jarr := (sh, d).
Hypothesis (EX : exists_val amax (Ar sh d)) (K0 : k <> 0) (KL : k <= length sh) (SC : some_cells (firstn k sh)).
Notation frame := (firstn k sh).
Notation csh := (skipn k sh).
Lemma len_d : length d = size frame * size csh.
Proof. destruct EX as (V & _). unfold valid_arg, array in V. cbn [arr_of fst snd] in V. rewrite V. apply size_split. Qed.
Lemma d_max : (Z.of_nat (length d) <= amax)%Z.
Proof. apply EX. Qed.
Lemma v_x : valid_arr x.
Proof. exact (proj1 EX). Qed.
Lemma sh_255 : length sh <= 255.
Proof. apply EX. Qed.
Lemma frame_len : length frame = k.
Proof. rewrite firstn_length. lia. Qed.
Lemma csh_len : length csh = length sh - k.
Proof. apply skipn_length. Qed.
Lemma cam_ok : usz frame = size frame.
Proof. apply usz_eq. unfold some_cells in SC. lia. Qed.
Lemma csz_ok : usz csh = size csh.
Proof. apply usz_eq. pose proof len_d. pose proof d_max. unfold some_cells in SC. nia. Qed.
Lemma array_cells : array frame (the_cells x k).
Proof. exact (the_cells_len x k). Qed.
Lemma cell_len i : i < size frame -> length (firstn (size csh) (skipn (i * size csh) d)) = size csh.
Proof. apply slice_len. exact len_d. Qed.
(** the plain loop *)
Lemma base1 (op : cop A S) : sound1 amax op ->
  placed amax frame (calls (call1 op) (the_cells x k) s) (gather amax frame (collect (usz frame) 0 (fun i s => do c <- slice x k (i * csz_of sh k); call1 op c s) s)).
Proof.
  intros SD. pose proof (base_ok x k (call1 op) s v_x) as B. cbn [fst snd x] in B. pose proof d_max. rewrite B by (assumption || lia).
  apply gather_ok; [exact array_cells|exact SC|rewrite frame_len; pose proof sh_255; lia|exact AM|].
  intros c s0 r s1 Hc. apply call1_sound; [exact SD|]. apply (cell_exists amax x k); [exact EX|exact Hc].
Qed.
Lemma sp_direct (op : cop A S) (g : list A -> list A) t r : (forall c, length c = size csh -> call1 op (Ar csh c) s = Ok (Ar t (g c), s)) ->
  (forall c, length c = size csh -> length (g c) = size t) -> length t <= Datatypes.S (length csh) -> k + length t <= 255 -> size t <= size csh ->
  r = concat (map (fun i => g (firstn (size csh) (skipn (i * size csh) d))) (seq 0 (size frame))) ->
  placed amax frame (calls (call1 op) (the_cells x k) s) (Ok ((frame ++ t, r), s)).
Proof.
  intros F G _ R T E. pose proof len_d as LD. pose proof d_max as DM.
  apply (direct amax frame (the_cells x k) (call1 op) (fun c => Ar t (g (snd (arr_of c)))) s t); [exact array_cells|rewrite frame_len; exact R|nia|..].
  - intros c Hc. apply the_cells_in in Hc. destruct Hc as (i & Hi & ->). apply F. apply cell_len. exact Hi.
  - intros c Hc. apply the_cells_in in Hc. destruct Hc as (i & Hi & ->). cbn [arr_of fst snd]. split; [reflexivity|]. unfold valid_arg, array. cbn [arr_of fst snd]. apply G, cell_len. exact Hi.
  - rewrite E. unfold the_cells. rewrite map_map. reflexivity.
Qed.
Lemma whole_cells : d = concat (map (fun i => firstn (size csh) (skipn (i * size csh) d)) (seq 0 (size frame))).
Proof. symmetry. apply concat_slices. exact len_d. Qed.
Lemma sp_tack : placed amax frame (calls (call1 CTack) (the_cells x k) s) (Ok (x, s)).
Proof.
  replace (Ok (x, s)) with (Ok ((frame ++ csh, d), s)) by (rewrite firstn_skipn; reflexivity). apply (sp_direct CTack (fun c => c)); [reflexivity|trivial|lia|rewrite csh_len; pose proof sh_255; lia|lia|exact whole_cells].
Qed.
Lemma sp_couple : length sh < 255 -> placed amax frame (calls (call1 CCouple) (the_cells x k) s) (Ok ((frame ++ 1 :: csh, d), s)).
Proof.
  intros R. apply (sp_direct CCouple (fun c => c)).
  - intros c Hc. cbn [CellsModel.call1 p_couple unarg fst snd]. unfold p_couple. cbn [unarg fst snd]. rewrite (proj2 (Nat.leb_gt _ _)) by (rewrite csh_len; lia). reflexivity.
  - intros c Hc. rewrite size_cons. lia.
  - cbn [length]. lia.
  - cbn [length]. rewrite csh_len. lia.
  - rewrite size_cons. lia.
  - exact whole_cells.
Qed.
Lemma sp_deshape : k < 255 -> placed amax frame (calls (call1 CDeshape) (the_cells x k) s) (Ok ((frame ++ [size csh], d), s)).
Proof.
  intros R. apply (sp_direct CDeshape (fun c => c)).
  - intros c Hc. cbn [CellsModel.call1]. unfold p_deshape. cbn [unarg fst snd bind]. rewrite Hc. reflexivity.
  - intros c Hc. cbn [size fold_right]. lia.
  - cbn [length]. lia.
  - cbn [length]. lia.
  - cbn [size fold_right]. lia.
  - exact whole_cells.
Qed.
Lemma sp_enclose : placed amax frame (calls (call1 CEnclose) (the_cells x k) s) (do r <- toKCells amax box x k; Ok (r, s)).
Proof.
  unfold toKCells. cbn [fst x]. rewrite cam_ok. unfold some_cells in SC. rewrite (proj2 (Nat.eqb_neq _ _)) by lia.
  destruct (Z.ltb_spec amax (Z.of_nat (size frame))) as [B|B].
  - unfold placed. rewrite (calls_map _ (fun c => Ar [] [box (unarg c)])) by reflexivity. right. split; [|reflexivity].
    intros t (F & _ & B'). assert (t = []).
    { assert (N : the_cells x k <> []) by (intros N; pose proof (the_cells_len x k) as L; rewrite N in L; cbn [length fst x] in L; lia).
      destruct (the_cells x k); [congruence|]. cbn [map] in F. apply Forall_inv in F. symmetry. exact F. }
    subst t. change (size []) with 1 in B'. lia.
  - rewrite (mapr_all _ (fun i => box (csh, firstn (size csh) (skipn (i * size csh) d)))).
    + cbn [bind]. match goal with |- placed _ _ _ (Ok ((_, ?r), _)) => replace (Ok ((frame, r), s)) with (Ok ((frame ++ [], r), s)) by (rewrite app_nil_r; reflexivity) end.
      apply (direct amax frame (the_cells x k) _ (fun c => Ar [] [box (unarg c)])); [exact array_cells|cbn [length]; rewrite frame_len; pose proof sh_255; lia|change (size []) with 1; lia|reflexivity| |].
      * intros c _. split; reflexivity.
      * unfold the_cells. rewrite map_map. cbn [arr_of snd unarg fst x]. generalize (seq 0 (size frame)). intros l. induction l as [|i l IH]; [reflexivity|]. cbn [map concat app]. f_equal. exact IH.
    + intros i Hi. apply in_seq in Hi. pose proof d_max. pose proof (slice_ok x k i v_x) as SL. cbn [fst snd x] in SL. rewrite SL by lia. reflexivity.
Qed.
Lemma sp_const v : exists_val amax v -> placed amax frame (calls (call1 (CConst v)) (the_cells x k) s) (do r <- const_cells amax frame v; Ok (r, s)).
Proof.
  intros (V & R & L). unfold const_cells. rewrite unarg_arr. destruct (arr_of v) as [vsh vd] eqn:Ev. cbn [fst snd] in V, R, L. unfold valid_arg, array in V. rewrite Ev in V. cbn [fst snd] in V.
  unfold some_cells in SC. pose proof sh_255.
  assert (CA : calls (call1 (CConst v)) (the_cells x k) s = Ok (map (fun _ => v) (the_cells x k), s)) by (apply (calls_map _ (fun _ => v)); reflexivity).
  assert (NF : forall t, fits_frame amax frame (map (fun _ : arg A => v) (the_cells x k)) t -> t = vsh).
  { intros t (F & _). assert (N : the_cells x k <> []) by (intros N; pose proof (the_cells_len x k) as L0; rewrite N in L0; cbn [length fst x] in L0; lia).
    destruct (the_cells x k); [congruence|]. cbn [map] in F. apply Forall_inv in F. rewrite Ev in F. symmetry. exact F. }
  destruct (negb (length vsh =? 0) && (255 <? length vsh + length frame)) eqn:T.
  { rewrite CA. right. split; [|reflexivity]. intros t F. pose proof (NF t F) as ->. destruct F as (_ & F & _).
    apply andb_prop in T. destruct T as (_ & T). apply Nat.ltb_lt in T. lia. }
  assert (RK : length frame + length vsh <= 255).
  { destruct (Nat.eqb_spec (length vsh) 0) as [Z0|Z0]; [rewrite Z0, frame_len; lia|]. cbn [negb andb] in T. apply Nat.ltb_ge in T. lia. }
  assert (RIA : fold_right (fun l r => Z.of_nat l * r)%Z 1%Z (frame ++ vsh) = (Z.of_nat (size frame) * Z.of_nat (size vsh))%Z).
  { rewrite <- Nat2Z.inj_mul, <- size_app. generalize (frame ++ vsh). clear. induction l as [|a l IH]; [reflexivity|]. cbn [fold_right]. rewrite IH, size_cons. lia. }
  rewrite RIA. destruct ((2 ^ 32 <=? _)%Z || (amax <? _)%Z) eqn:T2.
  { rewrite CA. right. split; [|reflexivity]. intros t F. pose proof (NF t F) as ->. destruct F as (_ & _ & F).
    apply orb_prop in T2. destruct T2 as [T2|T2]; [apply Z.leb_le in T2|apply Z.ltb_lt in T2]; lia. }
  apply orb_false_elim in T2. destruct T2 as (T1 & T2). apply Z.ltb_ge in T2.
  assert (RC : reshape_cycle (Z.to_nat (Z.of_nat (size frame) * Z.of_nat (size vsh))) vd = Ok (concat (repeat vd (size frame)))).
  { unfold reshape_cycle. replace (Z.to_nat (Z.of_nat (size frame) * Z.of_nat (size vsh))) with (size frame * length vd) by lia.
    destruct vd as [|a vd]; [|apply cycle_ok; discriminate]. cbn [length]. rewrite Nat.mul_0_r. cbn [seq mapr]. generalize (size frame). intros n. induction n; [reflexivity|exact IHn]. }
  rewrite RC. cbn [bind]. apply (direct amax frame (the_cells x k) _ (fun _ => v)); [exact array_cells|exact RK|exact T2|reflexivity| |].
  - intros c _. rewrite Ev. split; [reflexivity|]. unfold valid_arg, array. rewrite Ev. exact V.
  - rewrite Ev. cbn [snd]. change (size frame) with (size (firstn k (fst x))). rewrite <- (the_cells_len x k). generalize (the_cells x k). intros l. induction l as [|c l IH]; [reflexivity|]. cbn [map concat length repeat]. f_equal. exact IH.
Qed.
Lemma nocell_nil (c : list A) : length d = 0 -> length c = size csh -> c = [].
Proof. intros H0 Hc. pose proof len_d as LD. unfold some_cells in SC. destruct c; [reflexivity|]. cbn [length] in Hc. nia. Qed.
Lemma sp_first : length d <> 0 -> k < length sh -> placed amax frame (calls (call1 CFirst) (the_cells x k) s) (do r <- select_cells 0 x (usz frame) k; Ok (r, s)).
Proof.
  intros D0 K. destruct (skipn_cons sh k K) as (n & R & _ & E). pose proof len_d as LD. pose proof d_max as DM. unfold select_cells. cbn [fst snd x]. rewrite R. cbn [bind].
  assert (N : size csh = n * size (skipn (k + 1) sh)) by (rewrite E; apply size_cons). assert (N0 : n <> 0) by nia.
  assert (US : usz (skipn (k + 1) sh) = size (skipn (k + 1) sh)). { apply usz_eq. unfold some_cells in SC. rewrite N in LD. nia. }
  rewrite US, cam_ok. rewrite N in LD. rewrite select_single_ok by (exact LD || lia). cbn [bind].
  apply (sp_direct CFirst (fun c => firstn (size (skipn (k + 1) sh)) c)).
  - intros c Hc. cbn [CellsModel.call1]. rewrite E. destruct n as [|n]; [congruence|]. unfold p_first. rewrite (div_cell _ (Datatypes.S n) (size (skipn (k + 1) sh))) by lia. reflexivity.
  - intros c Hc. rewrite firstn_length. nia.
  - rewrite E. cbn [length]. lia.
  - rewrite skipn_length. pose proof sh_255. lia.
  - nia.
  - f_equal. apply map_ext. intros i. rewrite Nat.mul_0_l. cbn [skipn]. rewrite N. reflexivity.
Qed.
Lemma sp_pick : length d <> 0 -> placed amax frame (calls (call1 CPick) (the_cells x k) s) (do r <- pick_cells 0 x (usz frame) k; Ok (r, s)).
Proof.
  intros D0. pose proof len_d as LD. pose proof d_max as DM. assert (C0 : size csh <> 0) by (intros Q; rewrite Q in LD; lia). unfold pick_cells. cbn [fst snd x]. rewrite csz_ok, cam_ok.
  rewrite select_single_ok by (rewrite ?Nat.mul_1_r; try exact LD; nia). cbn [bind].
  match goal with |- placed _ _ _ (Ok ((_, ?r), _)) => replace (Ok ((frame, r), s)) with (Ok ((frame ++ [], r), s)) by (rewrite app_nil_r; reflexivity) end.
  apply (direct amax frame (the_cells x k) _ (fun c => match snd (arr_of c) with a :: _ => At a | [] => c end)).
  - exact array_cells.
  - pose proof sh_255. cbn [length]. rewrite frame_len. lia.
  - change (size []) with 1. clear - LD DM C0. nia.
  - intros c Hc. apply the_cells_in in Hc. destruct Hc as (i & Hi & ->). cbn [fst snd x] in *. pose proof (cell_len i Hi) as CL.
    cbn [CellsModel.call1 arr_of snd]. unfold p_pick. cbn [unarg snd]. destruct (firstn (size csh) _); [cbn [length] in CL; congruence|reflexivity].
  - intros c Hc. apply the_cells_in in Hc. destruct Hc as (i & Hi & ->). cbn [fst snd x] in *. pose proof (cell_len i Hi) as CL.
    cbn [arr_of snd]. destruct (firstn (size csh) _); [cbn [length] in CL; congruence|]. split; reflexivity.
  - f_equal. unfold the_cells. rewrite map_map. cbn [fst snd x]. apply map_ext_in. intros i Hi. apply in_seq in Hi. pose proof (cell_len i ltac:(lia)) as CL.
    rewrite Nat.mul_0_l, Nat.mul_1_r. cbn [skipn]. cbn [arr_of snd]. destruct (firstn (size csh) _); [cbn [length] in CL; congruence|reflexivity].
Qed.
Lemma sp_same (op : cop A S) : (forall c, length c = size csh -> call1 op (Ar csh c) s = Ok (Ar csh c, s)) -> placed amax frame (calls (call1 op) (the_cells x k) s) (Ok (x, s)).
Proof.
  intros H. replace (Ok (x, s)) with (Ok ((frame ++ csh, d), s)) by (rewrite firstn_skipn; reflexivity).
  apply (sp_direct op (fun c => c)); [exact H|trivial|lia|rewrite skipn_length; pose proof sh_255; lia|lia|exact whole_cells].
Qed.
Lemma sp_shift zero z after n : fill = Some z -> length d <> 0 -> nth_error sh k = Some n -> (n = 1 \/ size (skipn (k + 1) sh) = 1) ->
  placed amax frame (calls (call1 (CShift after)) (the_cells x k) s) (do r <- shift_cells zero z x (usz frame) n after; Ok (r, s)).
Proof.
  intros F D0 NE C. assert (K : k < length sh) by (apply nth_error_Some; congruence). destruct (skipn_cons sh k K) as (n' & _ & NE' & E). rewrite NE in NE'. injection NE' as <-.
  pose proof len_d as LD. pose proof d_max as DM. unfold some_cells in SC.
  assert (N : size csh = n * size (skipn (k + 1) sh)) by (rewrite E; apply size_cons). assert (N0 : n <> 0) by nia.
  assert (CS : forall c, length c = size csh -> call1 (CShift after) (Ar csh c) s = Ok (Ar csh (let m := size (skipn (k + 1) sh) in if after then skipn m c ++ repeat z m else repeat z m ++ firstn (length c - m) c), s)).
  { intros c Hc. cbn [CellsModel.call1]. rewrite E. unfold p_shift. rewrite F, (proj2 (Nat.eqb_neq (length c) 0)) by nia.
    rewrite (div_cell _ n (size (skipn (k + 1) sh))) by lia. reflexivity. }
  assert (CL : forall c, length c = size csh -> length ((let m := size (skipn (k + 1) sh) in if after then skipn m c ++ repeat z m else repeat z m ++ firstn (length c - m) c)) = size csh).
  { intros c Hc. assert (size (skipn (k + 1) sh) <= size csh) by nia. cbv zeta. destruct after; rewrite app_length, repeat_length, ?skipn_length, ?firstn_length; lia. }
  rewrite cam_ok. unfold shift_cells. cbn [fst snd x].
  assert (G : forall r, r = concat (map (fun i => (fun c => let m := size (skipn (k + 1) sh) in if after then skipn m c ++ repeat z m else repeat z m ++ firstn (length c - m) c) (firstn (size csh) (skipn (i * size csh) d))) (seq 0 (size frame))) ->
     placed amax frame (calls (call1 (CShift after)) (the_cells x k) s) (Ok ((sh, r), s))).
  { intros r Er. replace (Ok ((sh, r), s)) with (Ok ((frame ++ csh, r), s)) by (rewrite firstn_skipn; reflexivity).
    apply (sp_direct (CShift after) _ csh r CS CL); [lia|rewrite skipn_length; pose proof sh_255; lia|lia|exact Er]. }
  destruct (Nat.eqb_spec n 1) as [N1|N1].
  - cbn [bind]. apply G. rewrite LD. cbv beta.
    transitivity (concat (map (fun _ => repeat z (size csh)) (seq 0 (size frame)))).
    + clear. generalize 0. generalize (size frame) as p. induction p as [|p IH]; intros q; [reflexivity|]. cbn [Nat.mul seq map concat]. rewrite repeat_app. f_equal. apply IH.
    + f_equal. apply map_ext_in. intros i Hi. apply in_seq in Hi. pose proof (cell_len i ltac:(lia)) as LC. cbv zeta. rewrite N1, Nat.mul_1_l in N. rewrite <- N, LC.
      destruct after; [rewrite <- LC at 2; rewrite skipn_all; reflexivity|]. rewrite Nat.sub_diag. cbn [firstn]. rewrite app_nil_r. reflexivity.
  - assert (M1 : size (skipn (k + 1) sh) = 1) by (destruct C; congruence). rewrite M1, Nat.mul_1_r in *.
    unfold sl. destruct after.
    + rewrite (proj2 (Nat.leb_le _ _)) by lia. cbn [bind]. rewrite (firstn_len_all (skipn 1 d)) by (rewrite skipn_length; lia).
      pose proof (column_after z n ltac:(lia) (size frame) d [] zero ltac:(rewrite <- N; exact LD) ltac:(lia)) as Q. cbn [app length Nat.add] in Q. rewrite Q. cbn [bind].
      apply G. cbv zeta beta. rewrite N. reflexivity.
    + rewrite (proj2 (Nat.leb_le _ _)) by lia. cbn [bind skipn].
      pose proof (column_before z n ltac:(lia) (size frame) d [] zero ltac:(rewrite <- N; exact LD) ltac:(lia)) as Q. cbn [app length] in Q. rewrite Q. cbn [bind].
      apply G. cbv zeta beta. f_equal. apply map_ext_in. intros i Hi. apply in_seq in Hi. pose proof (cell_len i ltac:(lia)) as LC. rewrite LC, N. reflexivity.
Qed.
Lemma sp_reverse n : length d <> 0 -> csh = [n] -> n <= 64 ->
  placed amax frame (calls (call1 CReverse) (the_cells x k) s) (do r <- (do r <- select_rows amax d n (usz frame) (firstn n (skipn (64 - n) reverse_inds)); Ok (sh, r)); Ok (r, s)).
Proof.
  intros D0 E N64. pose proof len_d as LD. pose proof d_max as DM. unfold some_cells in SC. assert (N : size csh = n) by (rewrite E; cbn [size fold_right]; lia). rewrite cam_ok, rev_inds by exact N64.
  assert (exists a : A, True) as (a & _) by (destruct d as [|a ?]; [cbn [length] in D0; lia|exists a; trivial]).
  unfold select_rows. rewrite map_length, seq_length, (proj2 (Z.ltb_ge _ _)) by nia.
  rewrite (mapr_all _ (fun i => rev (firstn n (skipn (i * n) d)))).
  - cbn [bind]. match goal with |- placed _ _ _ (Ok ((_, ?r), _)) => replace (Ok ((sh, r), s)) with (Ok ((frame ++ csh, r), s)) by (rewrite firstn_skipn; reflexivity) end.
    apply (sp_direct CReverse (fun c => rev c)).
    + intros c Hc. cbn [CellsModel.call1]. rewrite E. unfold p_reverse. cbn [bind]. rewrite (div_cell (length c) n 1) by (try lia; intros Q; rewrite N, Q in LD; lia). rewrite <- (rev_units c). replace (length c) with n by lia. reflexivity.
    + intros c Hc. rewrite rev_length. exact Hc.
    + lia.
    + rewrite skipn_length. pose proof sh_255. lia.
    + lia.
    + rewrite N. reflexivity.
  - intros i Hi. apply in_seq in Hi. pose proof (cell_len i ltac:(lia)) as LC. rewrite N in LC.
    rewrite <- (rev_nth_map (firstn n (skipn (i * n) d)) a). rewrite LC. rewrite <- (map_map (fun j => n - 1 - j) (fun j => nth j (firstn n (skipn (i * n) d)) a)).
    apply mapr_all. intros j Hj. apply in_map_iff in Hj. destruct Hj as (q & <- & Hq). apply in_seq in Hq. rewrite (proj2 (Nat.ltb_lt _ _)) by lia.
    apply nth_error_rd. rewrite <- nth_slice by lia. apply nth_error_nth'. lia.
Qed.
Lemma reverse_same n t (c : list A) : csh = n :: t -> n <= 1 \/ length d = 0 -> length c = size csh -> call1 CReverse (Ar csh c) s = Ok (Ar csh c, s).
Proof.
  intros E H Hc. cbn [CellsModel.call1]. destruct H as [H|H].
  - rewrite E in Hc |- *. rewrite size_cons in Hc. unfold p_reverse. cbn [bind]. destruct n as [|[|n]]; [|..]; [destruct c; [reflexivity|cbn [length] in Hc; lia]| |lia].
    rewrite Nat.div_1_r. cbn [blocks rev app concat]. rewrite app_nil_r, firstn_all. reflexivity.
  - rewrite (nocell_nil c H Hc). rewrite E. unfold p_reverse. cbn [bind length]. rewrite blocks_slices. do 4 f_equal.
    generalize (seq 0 n). intros l. induction l as [|i l IH]; [reflexivity|]. cbn [map rev]. rewrite concat_app, IH. rewrite skipn_nil, firstn_nil. reflexivity.
Qed.
Theorem for_c1 zero d1 small (op : cop A S) : sound1 amax op -> (op = CDeshape -> k < 255) ->
  placed amax frame (calls (call1 op) (the_cells x k) s) (for_cells_c1 amax box fill zero d1 small op (length sh - k) k x s).
Proof.
  intros SD RK. pose proof (base1 op SD) as BASE. fold x in BASE. pose proof len_d as LD. pose proof sh_255 as R255.
  unfold for_cells_c1. cbn [fst snd x]. fold x. pose proof cam_ok as CAM. assert (CN : (usz frame =? 0) = false) by (apply Nat.eqb_neq; unfold some_cells in SC; lia).
  destruct op as [f| | | | | | |after| |v]; rewrite ?CN.
  - exact BASE.
  - exact sp_tack.
  - apply sp_enclose; assumption.
  - destruct (Nat.eqb_spec (length d) 0); [exact BASE|]. destruct (Nat.eqb_spec (length sh - k) 0); [exact BASE|]. apply sp_first; lia.
  - destruct (Nat.eqb_spec (length d) 0); [exact BASE|]. destruct (negb d1); [exact BASE|]. apply sp_pick; lia.
  - destruct (Nat.eqb_spec (length sh) 255) as [R|R].
    + rewrite (calls_map _ (fun c => Ar (1 :: fst (arr_of c)) (snd (arr_of c)))).
      * right. split; [|reflexivity]. intros t (F & RF & _). destruct (the_cells x k) as [|c cs] eqn:EC.
        { pose proof (the_cells_len x k) as L. rewrite EC in L. cbn [length fst x] in L. unfold some_cells in SC. lia. }
        assert (HC : In c (the_cells x k)) by (rewrite EC; left; reflexivity). apply the_cells_in in HC. destruct HC as (i & _ & ->). cbn [map] in F. apply Forall_inv in F. cbn [arr_of fst x] in F.
        rewrite <- F in RF. cbn [length] in RF. rewrite firstn_length, skipn_length in RF. lia.
      * intros c Hc. apply the_cells_in in Hc. destruct Hc as (i & Hi & ->). cbn [fst snd x CellsModel.call1]. unfold p_couple. cbn [unarg fst snd].
        rewrite (proj2 (Nat.leb_gt _ _)) by (rewrite skipn_length; lia). reflexivity.
    + unfold m_sh. rewrite (proj2 (Z.leb_le _ _)) by (rewrite app_length; cbn [length]; rewrite firstn_length, skipn_length; unfold ur; rewrite Z.mod_small; lia).
      cbn [bind]. apply sp_couple; try assumption. lia.
  - specialize (RK eq_refl). destruct (Nat.eqb_spec (length sh - k) 1) as [C1|C1].
    + apply sp_same. intros c Hc. cbn [CellsModel.call1]. unfold p_deshape. cbn [unarg fst snd bind].
      destruct csh as [|n [|m t]] eqn:E; pose proof (f_equal (@length nat) E) as EL; rewrite skipn_length in EL; cbn [length] in EL; try lia.
      rewrite Hc. cbn [size fold_right]. rewrite Nat.mul_1_r. reflexivity.
    + unfold m_sh. rewrite (proj2 (Z.leb_le _ _)) by (rewrite app_length; cbn [length]; rewrite firstn_length; unfold ur; rewrite Z.mod_small; lia).
      cbn [bind]. rewrite csz_ok. apply sp_deshape; assumption.
  - destruct (Nat.eqb_spec (length d) 0) as [D0|D0].
    { destruct (Nat.eq_dec k (length sh)) as [KE|KE].
      - exfalso. unfold some_cells in SC. subst k. rewrite firstn_all, skipn_all in *. change (size []) with 1 in LD. lia.
      - apply sp_same. intros c Hc. cbn [CellsModel.call1]. destruct (skipn_cons sh k ltac:(lia)) as (n & _ & _ & E). rewrite (nocell_nil c D0 Hc), E. reflexivity. }
    destruct (Nat.eqb_spec (length sh - k) 0) as [C0|C0]; [exact BASE|].
    destruct (skipn_cons sh k ltac:(lia)) as (n & R & NE & E). rewrite R. cbn [bind].
    destruct (negb (length sh - k =? 1) && negb ((n =? 1) || (usz (skipn (k + 1) sh) =? 1))) eqn:T; [exact BASE|].
    assert (G : n = 1 \/ size (skipn (k + 1) sh) = 1).
    { destruct (Nat.eqb_spec (length sh - k) 1) as [C1|C1].
      - right. assert (L : length (skipn (k + 1) sh) = 0) by (rewrite skipn_length; lia). destruct (skipn (k + 1) sh); [reflexivity|discriminate].
      - cbn [negb andb] in T. apply negb_false_iff, orb_prop in T. destruct T as [T|T]; apply Nat.eqb_eq in T; [left; exact T|right].
        rewrite usz_eq in T; [exact T|]. rewrite E, size_cons in LD. pose proof d_max as DM. clear - LD DM D0 AM. revert LD. generalize (size frame), (size (skipn (k + 1) sh)). intros f m LD.
        assert (f <> 0) by (intros ->; lia). assert (n <> 0) by (intros ->; lia). assert (m <= length d) by (rewrite LD; destruct f, n; try lia; nia). lia. }
    destruct fill as [z|] eqn:F; [|exact BASE]. rewrite <- F. apply sp_shift; assumption.
  - destruct (Nat.eqb_spec (length sh - k) 0) as [C0|C0]; [exact BASE|].
    destruct (skipn_cons sh k ltac:(lia)) as (n & R & NE & E). rewrite R. cbn [bind].
    destruct ((n <=? 1) || (length d =? 0)) eqn:T.
    { apply sp_same. intros c Hc. apply (reverse_same n (skipn (k + 1) sh) c E); [|exact Hc]. apply orb_prop in T. destruct T as [T|T]; [left; apply Nat.leb_le; exact T|right; apply Nat.eqb_eq; exact T]. }
    apply orb_false_elim in T. destruct T as (T1 & T2). apply Nat.eqb_neq in T2.
    destruct ((length sh - k =? 1) && (n <=? 64) && small) eqn:T; [|exact BASE].
    apply andb_prop in T. destruct T as (T & _). apply andb_prop in T. destruct T as (T3 & T4). apply Nat.eqb_eq in T3. apply Nat.leb_le in T4.
    apply sp_reverse; [exact T2| |exact T4]. rewrite E. f_equal. apply length_zero_iff_nil. rewrite skipn_length. lia.
  - apply sp_const; assumption.
Qed.
End P.
