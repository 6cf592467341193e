(** Proofs about CellsModel: two arguments, one of them used whole, continued. *)
From Verif Require Import Base SqueezeModel TransSpec JoinModel JoinSpec JoinProof JoinProof2 JoinProof4 MapModel MapSpec MapProof MapProof2 MapProof4 CellsModel CellsSpec CellsProof CellsProof2 CellsProof3 CellsProof4.
From Coq Require Import Lia ZArith.
Open Scope nat_scope.
Lemma concat_concat_map {A B} (f : A -> list B) l : concat (map f l) = flat_map f l.
Proof. symmetry. apply flat_map_concat_map. Qed.
Section P.
Context {A S : Type}.
Notation jarr := (list nat * list A)%type.
Variables (amax : Z) (idx : A -> option Z) (box : jarr -> A).
Hypothesis (AM1 : (2 <= amax)%Z) (AM : (amax < 2 ^ 32)%Z).
Notation call2 := (@call2 A S amax idx).
Variables (sh : list nat) (d : list A) (k : nat) (s : S).
Hypothesis (EX : exists_val amax (Ar sh d)) (K0 : k <> 0) (KL : k <= length sh) (SC : some_cells (firstn k sh)).
Notation frame := (firstn k sh).
Notation csh := (skipn k sh).
Notation the := (the_cells (sh, d) k).
Lemma b2 (f : arg A -> S -> res (arg A * S)) : (forall c s r s', exists_val amax c -> f c s = Ok (r, s') -> exists_val amax r) ->
  placed amax frame (calls f the s) (gather amax frame (collect (usz frame) 0 (fun i s => do c <- slice (sh, d) k (i * csz_of sh k); f c s) s)).
Proof. apply (base2 amax idx None box); assumption. Qed.
Lemma cam_pos : (usz frame =? 0) = false /\ usz frame = size frame.
Proof. unfold some_cells in SC. rewrite usz_eq by lia. split; [apply Nat.eqb_neq; lia|reflexivity]. Qed.
Theorem for_AS (op : cop2 A S) (x : arg A) : sound2 amax op -> exists_val amax x -> (op = CCouple2 -> 2 * Z.of_nat (length d) < 2 ^ 32)%Z ->
  placed amax frame (calls (fun c => call2 op c x) the s) (for_cells_AS amax idx op (sh, d) x (length sh - k) s).
Proof.
  intros SD XV RC. destruct cam_pos as (C0 & CAM). unfold for_cells_AS. cbn [fst snd]. replace (length sh - (length sh - k)) with k by lia. rewrite C0.
  assert (BASE := b2 (fun c => call2 op c x) (fun c s r s' EC => call2_sound amax idx op c x s r s' SD EC XV)).
  destruct op as [f| | | | |v].
  - exact BASE.
  - apply (as_same amax None box); [assumption..|reflexivity].
  - apply (as_const amax None box); [assumption..|reflexivity].
  - destruct (Nat.eqb_spec (length sh) 1) as [L1|L1]; [|exact BASE]. destruct (unpack x) as [a|] eqn:U; [|exact BASE].
    assert (ES : sh = [length d]). { destruct sh as [|n [|m t]]; try discriminate. destruct EX as (V & _). unfold valid_arg, array in V. cbn [arr_of fst snd size fold_right] in V. f_equal. lia. }
    exact (couple_units amax idx box AM1 sh d k s K0 KL SC true x a (proj1 XV) U ES (RC eq_refl)).
  - exact BASE.
  - apply (as_const amax None box); [assumption..|reflexivity].
Qed.
Lemma select_number ind n t (g : list A -> res (arg A)) (f : arg A -> S -> res (arg A * S)) : csh = n :: t -> ind < n ->
  (forall c, length c = size csh -> f (Ar csh c) s = Ok (Ar t (firstn (size t) (skipn (ind * size t) c)), s)) ->
  placed amax frame (calls f the s) (do r <- select_cells ind (sh, d) (usz frame) k; Ok (r, s)).
Proof.
  intros E LI F. destruct cam_pos as (C0 & CAM). assert (K : k < length sh) by (pose proof (f_equal (@length nat) E) as L; rewrite skipn_length in L; cbn [length] in L; lia).
  destruct (skipn_cons sh k K) as (n' & R & _ & E'). rewrite E in E'. injection E' as <- Et. unfold select_cells. cbn [fst snd]. rewrite R. cbn [bind]. rewrite <- Et.
  destruct EX as (V & RX & LX). unfold valid_arg, array in V. cbn [arr_of fst snd] in V, RX, LX. pose proof V as V'. rewrite (size_split k) in V'. rewrite E, size_cons in V'. unfold some_cells in SC.
  assert (TL : n * size t <= length d) by (rewrite V'; nia). assert (TM : size t <= length d) by nia.
  rewrite (usz_eq t) by lia. rewrite CAM, select_single_ok by (exact V' || exact LI). cbn [bind].
  apply (direct amax frame the _ (fun c => Ar t (firstn (size t) (skipn (ind * size t) (snd (arr_of c)))))); [exact (the_cells_len (sh, d) k)| | | | |].
  - pose proof (f_equal (@length nat) E) as L. rewrite skipn_length in L. cbn [length] in L. rewrite firstn_length. lia.
  - assert (size frame * size t <= length d) by (rewrite V'; nia). lia.
  - intros c Hc. apply the_cells_in in Hc. destruct Hc as (i & Hi & ->). cbn [fst snd] in *. apply F. apply (slice_len d (size frame)); [rewrite V; apply size_split|exact Hi].
  - intros c Hc. apply the_cells_in in Hc. destruct Hc as (i & Hi & ->). cbn [fst snd arr_of] in *. split; [reflexivity|]. unfold valid_arg, array. cbn [arr_of fst snd].
    apply (slice_len _ n); [|exact LI]. rewrite (slice_len d (size frame)) by (try exact Hi; rewrite V; apply size_split). rewrite E. apply size_cons.
  - f_equal. unfold the_cells. rewrite map_map. cbn [fst snd arr_of]. apply map_ext. intros i. rewrite E, size_cons. reflexivity.
Qed.
Lemma select_list (w : arg A) n : exists_val amax w -> csh = [n] -> k + length (fst (arr_of w)) <= 255 ->
  placed amax frame (calls (fun c => call2 CSelect w c) the s)
    (do r <- (do sh' <- m_sh (k + length (fst (arr_of w))) (frame ++ fst (arr_of w)); do inds <- mapr (index idx n) (snd (arr_of w)); do r <- select_rows amax d n (usz frame) inds; Ok (sh', r)); Ok (r, s)).
Proof.
  intros EW E RK. destruct cam_pos as (C0 & CAM). rewrite CAM. pose proof EW as (VW & RW & LW). unfold valid_arg, array in VW.
  destruct EX as (V & RX & LX). unfold valid_arg, array in V. cbn [arr_of fst snd] in V, RX, LX. pose proof V as V'. rewrite (size_split k) in V'. rewrite E in V'. change (size [n]) with (n * 1) in V'. rewrite Nat.mul_1_r in V'.
  unfold m_sh. rewrite (proj2 (Z.leb_le _ _)) by (rewrite app_length, firstn_length; unfold ur; rewrite Z.mod_small; lia). cbn [bind].
  set (wsh := fst (arr_of w)) in *. set (wd := snd (arr_of w)) in *.
  assert (CS : forall c, length c = n -> call2 CSelect w (Ar [n] c) s = do inds <- mapr (index idx n) wd; Ok (Ar wsh (concat (map (fun i => firstn 1 (skipn i c)) inds)), s)).
  { intros c Hc. cbn [CellsModel.call2]. rewrite (select_val amax idx w n [] c EW) by (change (size []) with 1; lia). fold wsh wd. cbn [length]. rewrite Nat.add_0_r, (proj2 (Nat.ltb_ge _ _)) by lia.
    assert (DV : length c / n <= 1) by (destruct n; [cbn [Nat.div]; lia|rewrite Hc, Nat.div_same by lia; lia]). rewrite (proj2 (Z.ltb_ge _ _)) by nia. cbn [orb].
    destruct (mapr (index idx n) wd) as [inds| |]; [|reflexivity..]. cbn [bind]. rewrite app_nil_r. do 4 f_equal. apply map_ext. intros i. rewrite Nat.mul_1_r. reflexivity. }
  destruct (indices_cases idx n wd) as [(inds & EI & FI & LI)|EI]; rewrite EI in CS |- *.
  2: { cbn [bind]. rewrite calls_fail; [reflexivity| |].
       - intros N. pose proof (the_cells_len (sh, d) k) as L. rewrite N in L. cbn [length fst] in L. unfold some_cells in SC. lia.
       - intros c Hc. apply the_cells_in in Hc. destruct Hc as (i & Hi & ->). cbn [fst snd] in *. rewrite E in *. apply CS. change (size [n]) with (n * 1). rewrite Nat.mul_1_r. apply (slice_len d (size frame)); assumption. }
  cbn [bind] in CS |- *. unfold select_rows. rewrite LI.
  set (g := fun c : arg A => Ar wsh (concat (map (fun i => firstn 1 (skipn i (snd (arr_of c)))) inds))).
  assert (CA : forall c, In c the -> call2 CSelect w c s = Ok (g c, s)).
  { intros c Hc. apply the_cells_in in Hc. destruct Hc as (i & Hi & ->). cbn [fst snd] in *. rewrite E in *. apply CS. change (size [n]) with (n * 1). rewrite Nat.mul_1_r. apply (slice_len d (size frame)); assumption. }
  assert (CN : size csh = n) by (rewrite E; apply Nat.mul_1_r).
  destruct (Z.ltb_spec amax (Z.of_nat (length wd) * Z.of_nat (size frame))) as [B|B].
  - cbn [bind]. rewrite (calls_map _ g) by exact CA. right. split; [|reflexivity]. intros t F.
    pose proof (fits_first amax idx box sh d k K0 KL SC g t F) as (i & _ & ->). destruct F as (_ & _ & F). unfold g in F. cbn [arr_of fst] in F. rewrite <- VW in F. lia.
  - rewrite (mapr_all _ (fun i => concat (map (fun j => firstn 1 (skipn j (firstn n (skipn (i * n) d)))) inds))).
    + cbn [bind]. apply (direct amax frame the _ g); [exact (the_cells_len (sh, d) k)|rewrite firstn_length; lia|rewrite <- VW; lia|exact CA| |].
      * intros c Hc. apply the_cells_in in Hc. destruct Hc as (i & Hi & ->). cbn [fst snd] in *. rewrite CN. split; [reflexivity|]. unfold valid_arg, array, g. cbn [arr_of fst snd]. rewrite <- VW, <- LI.
        pose proof (slice_len d _ _ _ V' Hi) as SL. clear - FI SL. induction FI as [|j inds H _ IH]; [reflexivity|]. cbn [map concat length]. rewrite app_length, IH, firstn_length, skipn_length, SL. lia.
      * f_equal. unfold the_cells. rewrite map_map. cbn [fst snd]. apply map_ext. intros i. unfold g. cbn [arr_of snd]. rewrite CN. reflexivity.
    + intros i Hi. apply in_seq in Hi. pose proof (slice_len d _ _ i V' ltac:(lia)) as SL. rewrite <- rows1 by (rewrite SL; exact FI). apply mapr_ext. intros j Hj.
      rewrite Forall_forall in FI. specialize (FI j Hj). rewrite (proj2 (Nat.ltb_lt _ _)) by exact FI. unfold rd. rewrite nth_slice by exact FI. reflexivity.
Qed.
Theorem for_SA wt (op : cop2 A S) (w : arg A) : sound2 amax op -> exists_val amax w -> (op = CCouple2 -> 2 * Z.of_nat (length d) < 2 ^ 32)%Z ->
  (op = CSelect -> k + length (fst (arr_of w)) <= 255) ->
  placed amax frame (calls (fun c => call2 op w c) the s) (for_cells_SA amax idx wt op w (sh, d) (length sh - k) s).
Proof.
  intros SD WV RC RS. destruct cam_pos as (C0 & CAM). unfold for_cells_SA. cbn [fst snd]. replace (length sh - (length sh - k)) with k by lia. rewrite C0.
  assert (BASE := b2 (fun c => call2 op w c) (fun c s r s' EC => call2_sound amax idx op w c s r s' SD WV EC)).
  destruct op as [f| | | | |v].
  - exact BASE.
  - apply (as_const amax None box); [assumption..|reflexivity].
  - apply (as_same amax None box); [assumption..|reflexivity].
  - destruct (Nat.eqb_spec (length sh) 1) as [L1|L1]; [|exact BASE]. destruct (unpack w) as [a|] eqn:U; [|exact BASE].
    assert (ES : sh = [length d]). { destruct sh as [|n [|m t]]; try discriminate. destruct EX as (V & _). unfold valid_arg, array in V. cbn [arr_of fst snd size fold_right] in V. f_equal. lia. }
    exact (couple_units amax idx box AM1 sh d k s K0 KL SC false w a (proj1 WV) U ES (RC eq_refl)).
  - specialize (RS eq_refl). pose proof EX as (V & RX & LX). unfold valid_arg, array in V. cbn [arr_of fst snd] in V, RX, LX.
    assert (ONE : forall n t (u : arg A) v, csh = n :: t -> arr_of u = ([], [v]) -> exists_val amax u -> forall c, length c = size csh ->
      call2 CSelect u (Ar csh c) s = do i <- index idx n v; Ok (Ar t (firstn (size t) (skipn (i * size t) c)), s)).
    { intros n t u v E EU XU c Hc. cbn [CellsModel.call2]. rewrite E in *. rewrite size_cons in Hc. rewrite (select_val amax idx u n t c XU Hc). rewrite EU. cbn [fst snd length].
      assert (LC : length c <= length d). { rewrite V, (size_split k), E, size_cons, Hc. unfold some_cells in SC. nia. }
      rewrite (proj2 (Nat.ltb_ge _ _)) by (pose proof (f_equal (@length nat) E) as L; rewrite skipn_length in L; cbn [length] in L; lia).
      rewrite (proj2 (Z.ltb_ge _ _)) by (pose proof (Nat.div_le_upper_bound (length c) n (length c)); destruct n; [cbn [Nat.div]; lia|]; assert (length c / Datatypes.S n <= length c) by (apply Nat.div_le_upper_bound; nia); lia).
      cbn [orb mapr]. destruct (index idx n v); [|reflexivity..]. cbn [bind map concat app]. rewrite app_nil_r. reflexivity. }
    destruct w as [v|wsh wd].
    + destruct (idx v) as [z|] eqn:EZ; [|exact BASE]. destruct (Nat.leb_spec 1 (length sh - k)) as [L1|L1]; [|exact BASE].
      destruct (skipn_cons sh k ltac:(lia)) as (n & R & _ & E). rewrite R. cbn [bind]. specialize (ONE n _ (At v) v E eq_refl WV).
      destruct (index_cases idx n v) as [(i & EI & LI)|EI]; rewrite EI in ONE |- *; cbn [bind] in ONE |- *.
      * apply (select_number i n (skipn (k + 1) sh) (fun c => Err)); [exact E|exact LI|exact ONE].
      * rewrite calls_fail; [reflexivity| |].
        { intros N. pose proof (the_cells_len (sh, d) k) as L. rewrite N in L. cbn [length fst] in L. unfold some_cells in SC. lia. }
        intros c Hc. apply the_cells_in in Hc. destruct Hc as (j & Hj & ->). cbn [fst snd] in *. apply ONE. apply (slice_len d (size frame)); [rewrite V; apply size_split|exact Hj].
    + destruct ((length sh - k =? 1) && wt) eqn:T; [|exact BASE]. apply andb_prop in T. destruct T as (T & _). apply Nat.eqb_eq in T.
      destruct (skipn_cons sh k ltac:(lia)) as (n & R & _ & E). rewrite R. cbn [bind].
      assert (T0 : skipn (k + 1) sh = []) by (apply length_zero_iff_nil; rewrite skipn_length; lia). rewrite T0 in E.
      destruct wsh as [|m wsh].
      * destruct WV as (VW & RW & LW). unfold valid_arg, array in VW. cbn [arr_of fst snd] in VW. destruct wd as [|v [|v' wd]]; try discriminate. cbn [rd nth_error bind]. change (rd [v] 0) with (@Ok A v). cbn [bind].
        specialize (ONE n [] (Ar [] [v]) v E eq_refl ltac:(repeat split; assumption)).
        destruct (index_cases idx n v) as [(i & EI & LI)|EI]; rewrite EI in ONE |- *; [|exact BASE].
        apply (select_number i n [] (fun c => Err)); [exact E|exact LI|exact ONE].
      * exact (select_list (Ar (m :: wsh) wd) n WV E RS).
  - apply (as_const amax None box); [assumption..|reflexivity].
Qed.
End P.
