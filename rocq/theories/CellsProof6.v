(** Proofs about CellsModel: the cells of both arguments. *)
From Verif Require Import Base SqueezeModel TransSpec JoinModel JoinSpec JoinProof JoinProof2 JoinProof4 MapModel MapSpec MapProof MapProof2 MapProof4 CellsModel CellsSpec CellsProof CellsProof2 CellsProof3 CellsProof4.
From Coq Require Import Lia ZArith.
Open Scope nat_scope.
Lemma map_snd_combine {A B} (l : list A) (m : list B) : length l = length m -> map snd (combine l m) = m.
Proof. revert m. induction l as [|a l IH]; intros [|b m] H; try discriminate; [reflexivity|]. cbn [combine map snd]. rewrite IH by (cbn [length] in H; lia). reflexivity. Qed.
Lemma map_fst_combine {A B} (l : list A) (m : list B) : length l = length m -> map fst (combine l m) = l.
Proof. revert m. induction l as [|a l IH]; intros [|b m] H; try discriminate; [reflexivity|]. cbn [combine map fst]. rewrite IH by (cbn [length] in H; lia). reflexivity. Qed.
Lemma combine_map_seq {A B} (f : nat -> A) (g : nat -> B) l : combine (map f l) (map g l) = map (fun i => (f i, g i)) l.
Proof. induction l as [|a l IH]; [reflexivity|]. cbn [map combine]. rewrite IH. reflexivity. Qed.
Lemma firstn_split_at {A} (l : list A) k j : k <= j -> firstn j l = firstn k l ++ firstn (j - k) (skipn k l).
Proof.
  intros H. rewrite <- (firstn_skipn k (firstn j l)) at 1. rewrite firstn_firstn, Nat.min_l by exact H. f_equal. rewrite skipn_firstn_comm. reflexivity.
Qed.
Section P.
Context {A S : Type}.
Notation jarr := (list nat * list A)%type.
Variables (amax : Z) (idx : A -> option Z) (box : jarr -> A).
Hypothesis (AM1 : (2 <= amax)%Z) (AM : (amax < 2 ^ 32)%Z).
Notation call2 := (@call2 A S amax idx).
Variables (wsh xsh : list nat) (wd xd : list A) (j k : nat) (s : S).
Hypothesis (EW : exists_val amax (Ar wsh wd)) (EX : exists_val amax (Ar xsh xd)) (J0 : j <> 0) (K0 : k <> 0) (JL : j <= length wsh) (KL : k <= length xsh).
Notation fw := (firstn j wsh).
Notation fx := (firstn k xsh).
Notation cw := (the_cells (wsh, wd) j).
Notation cx := (the_cells (xsh, xd) k).
Lemma len_fw : length fw = j. Proof. rewrite firstn_length. lia. Qed.
Lemma len_fx : length fx = k. Proof. rewrite firstn_length. lia. Qed.
Lemma agree_iff : agree fw fx <-> eqShPart wsh xsh (Nat.min j k) = true.
Proof.
  rewrite eqShPart_iff by lia. pose proof len_fw. pose proof len_fx. split.
  - intros [(t & E)|(t & E)].
    + pose proof (f_equal (@length nat) E) as L. rewrite app_length in L. rewrite Nat.min_l by lia.
      apply (f_equal (firstn j)) in E. rewrite firstn_firstn, Nat.min_l, firstn_app in E by lia. rewrite E, firstn_firstn, len_fw, Nat.sub_diag, Nat.min_id. cbn [firstn]. rewrite app_nil_r. reflexivity.
    + pose proof (f_equal (@length nat) E) as L. rewrite app_length in L. rewrite Nat.min_r by lia.
      apply (f_equal (firstn k)) in E. rewrite firstn_firstn, Nat.min_l, firstn_app in E by lia. rewrite E, firstn_firstn, len_fx, Nat.sub_diag, Nat.min_id. cbn [firstn]. rewrite app_nil_r. reflexivity.
  - intros E. destruct (Nat.le_ge_cases j k) as [L|L].
    + rewrite Nat.min_l in E by exact L. left. exists (firstn (k - j) (skipn j xsh)). rewrite E. apply firstn_split_at. exact L.
    + rewrite Nat.min_r in E by exact L. right. exists (firstn (j - k) (skipn k wsh)). rewrite <- E. apply firstn_split_at. exact L.
Qed.
Lemma AA_disagree (op : cop2 A S) : ~ agree fw fx -> for_cells_AA amax idx op (wsh, wd) (xsh, xd) (length wsh - j) (length xsh - k) s = Err.
Proof.
  intros NA. unfold for_cells_AA. cbn [fst snd]. replace (length wsh - (length wsh - j)) with j by lia. replace (length xsh - (length xsh - k)) with k by lia.
  replace (if j <? k then j else k) with (Nat.min j k) by (destruct (Nat.ltb_spec j k); lia).
  destruct (eqShPart wsh xsh (Nat.min j k)) eqn:E; [|reflexivity]. apply agree_iff in E. contradiction.
Qed.
(** the pairs of cells *)
Hypothesis AG : agree fw fx.
Notation frame := (longer fw fx).
Hypothesis SC : some_cells frame.
Definition ew := if j <? k then size (firstn (k - j) (skipn j xsh)) else 1.
Definition ex := if j <? k then 1 else size (firstn (j - k) (skipn k wsh)).
Definition the_pairs := pairs_of cw cx ew ex.
Lemma ag_cases : (j < k /\ frame = fx /\ fx = fw ++ firstn (k - j) (skipn j xsh) /\ ew = size (firstn (k - j) (skipn j xsh)) /\ ex = 1) \/
  (k <= j /\ frame = fw /\ fw = fx ++ firstn (j - k) (skipn k wsh) /\ ew = 1 /\ ex = size (firstn (j - k) (skipn k wsh))).
Proof.
  apply agree_iff in AG as E. rewrite eqShPart_iff in E by lia. unfold longer, ew, ex. rewrite len_fw, len_fx. destruct (Nat.ltb_spec j k) as [L|L].
  - left. rewrite (proj2 (Nat.ltb_ge k j)) by lia. rewrite Nat.min_l in E by lia. repeat split; [lia|]. rewrite E. apply firstn_split_at. lia.
  - right. rewrite Nat.min_r in E by lia. split; [exact L|]. assert (F : fw = fx ++ firstn (j - k) (skipn k wsh)) by (rewrite <- E; apply firstn_split_at; exact L).
    split; [|auto]. destruct (Nat.ltb_spec k j); [reflexivity|]. assert (j - k = 0) as Z by lia. rewrite Z in F. cbn [firstn] in F. rewrite app_nil_r in F. symmetry. exact F.
Qed.
Lemma sizes : size fw * ew = size frame /\ size fx * ex = size frame.
Proof.
  destruct ag_cases as [(_ & -> & E & -> & ->)|(_ & -> & E & -> & ->)]; apply (f_equal size) in E; rewrite size_app in E; lia.
Qed.
Lemma pairs_size : length cw * ew = length cx * ex.
Proof. pose proof sizes. rewrite !the_cells_len. cbn [fst]. lia. Qed.
Lemma pairs_array : array frame the_pairs.
Proof. unfold array, the_pairs. rewrite pairs_len by exact pairs_size. rewrite the_cells_len. apply sizes. Qed.
Lemma pairs_ok : cell_pairs j k (Ar wsh wd) (Ar xsh xd) the_pairs.
Proof.
  unfold cell_pairs, lead. cbn [arr_of fst]. split; [exact pairs_array|]. intros I HI.
  assert (P : paired (Ar fw cw) (Ar fx cx) frame the_pairs).
  { unfold the_pairs. destruct ag_cases as [(_ & EF & E & -> & ->)|(_ & EF & E & -> & ->)]; rewrite EF.
    - apply (paired_x (Ar fw cw) (Ar fx cx)); [exact E|exact (the_cells_len (wsh, wd) j)|exact (the_cells_len (xsh, xd) k)].
    - apply (paired_w (Ar fw cw) (Ar fx cx)); [exact E|exact (the_cells_len (wsh, wd) j)|exact (the_cells_len (xsh, xd) k)]. }
  unfold paired in P. cbn [arr_of] in P. destruct P as (_ & _ & P). destruct (P I HI) as (a & b & E & Ea & Eb). exists a, b. split; [exact E|]. rewrite len_fw in Ea. rewrite len_fx in Eb.
  assert (IW : inb fw (firstn j I) /\ inb fx (firstn k I)).
  { destruct ag_cases as [(L & EF & E' & _)|(L & EF & E' & _)]; rewrite EF in HI.
    - split; [rewrite E' in HI; apply inb_app in HI; rewrite len_fw in HI; apply HI|]. replace (firstn k I) with I; [exact HI|]. symmetry. apply firstn_all2. rewrite (inb_len _ _ HI), len_fx. lia.
    - split; [replace (firstn j I) with I; [exact HI|]; symmetry; apply firstn_all2; rewrite (inb_len _ _ HI), len_fw; lia|]. rewrite E' in HI. apply inb_app in HI. rewrite len_fx in HI. apply HI. }
  destruct IW as (IW & IX). destruct (the_cells_ok (wsh, wd) j (proj1 EW) J0 JL) as (_ & CW). destruct (the_cells_ok (xsh, xd) k (proj1 EX) K0 KL) as (_ & CX).
  unfold lead in CW, CX. cbn [arr_of fst snd] in CW, CX. destruct (CW _ IW) as (a' & Ea' & Ca). destruct (CX _ IX) as (b' & Eb' & Cb).
  rewrite Ea in Ea'. injection Ea' as <-. rewrite Eb in Eb'. injection Eb' as <-. split; assumption.
Qed.
Lemma pairs_at n a b : nth_error the_pairs n = Some (a, b) -> nth_error cw (n / ew) = Some a /\ nth_error cx (n / ex) = Some b.
Proof. apply pairs_nth. exact pairs_size. Qed.
Lemma pairs_in a b : In (a, b) the_pairs -> exists_val amax a /\ exists_val amax b.
Proof.
  intros H. apply In_nth_error in H. destruct H as (n & H). apply pairs_at in H. destruct H as (P & Q). apply nth_error_In in P, Q.
  split; [apply (cell_exists amax (wsh, wd) j); [exact EW|exact P]|apply (cell_exists amax (xsh, xd) k); [exact EX|exact Q]].
Qed.
Definition one (op : cop2 A S) (p : arg A * arg A) : S -> res (arg A * S) := call2 op (fst p) (snd p).
Lemma call_at op i i' a b s' : nth_error cw i = Some a -> nth_error cx i' = Some b ->
  (do a <- slice (wsh, wd) j (i * csz_of wsh j); do b <- slice (xsh, xd) k (i' * csz_of xsh k); call2 op a b s') = one op (a, b) s'.
Proof.
  intros P Q. assert (i < size fw) by (change fw with (firstn j (fst (wsh, wd))); rewrite <- (the_cells_len (wsh, wd) j); apply nth_error_Some; rewrite P; discriminate).
  assert (i' < size fx) by (change fx with (firstn k (fst (xsh, xd))); rewrite <- (the_cells_len (xsh, xd) k); apply nth_error_Some; rewrite Q; discriminate).
  destruct EW as (VW & _ & LW), EX as (VX & _ & LX). cbn [arr_of snd] in LW, LX.
  pose proof (slice_ok (wsh, wd) j i VW ltac:(assumption) ltac:(cbn [snd]; lia)) as SW. pose proof (slice_ok (xsh, xd) k i' VX ltac:(assumption) ltac:(cbn [snd]; lia)) as SX. cbn [fst snd] in SW, SX.
  rewrite SW, SX. rewrite the_cells_nth in P, Q by assumption. cbn [fst snd] in P, Q. injection P as <-. injection Q as <-. reflexivity.
Qed.
Lemma frame_255 : length frame <= 255.
Proof. destruct EW as (_ & R & _), EX as (_ & R' & _). cbn [arr_of fst] in *. unfold longer. rewrite len_fw, len_fx. destruct (k <? j); rewrite ?len_fw, ?len_fx; lia. Qed.
Lemma pairs_base op : sound2 amax op -> placed amax frame (calls (one op) the_pairs s) (gather amax frame (calls (one op) the_pairs s)).
Proof.
  intros SD. apply gather_ok; [exact pairs_array|exact SC|exact frame_255|exact AM|].
  intros [a b] s1 r s2 HI E. apply pairs_in in HI. exact (call2_sound amax idx op a b s1 r s2 SD (proj1 HI) (proj2 HI) E).
Qed.
Theorem for_AA (op : cop2 A S) : sound2 amax op -> (op = CCouple2 -> length wsh < 255 /\ (2 * Z.of_nat (length xd) < 2 ^ 32)%Z) ->
  placed amax frame (calls (one op) the_pairs s) (for_cells_AA amax idx op (wsh, wd) (xsh, xd) (length wsh - j) (length xsh - k) s).
Proof.
  intros SD RC. unfold for_cells_AA. cbn [fst snd]. replace (length wsh - (length wsh - j)) with j by lia. replace (length xsh - (length xsh - k)) with k by lia.
  set (m := if j <? k then j else k). set (zk := if j <? k then k else j). set (zsh := if j <? k then xsh else wsh).
  assert (EM : m = Nat.min j k) by (unfold m; destruct (Nat.ltb_spec j k); lia). rewrite EM. rewrite (proj1 agree_iff AG). cbn [negb]. rewrite <- EM.
  assert (EF : firstn zk zsh = frame) by (destruct ag_cases as [(L & E & _)|(L & E & _)]; unfold zk, zsh; [rewrite (proj2 (Nat.ltb_lt _ _)) by exact L|rewrite (proj2 (Nat.ltb_ge _ _)) by exact L]; symmetry; exact E).
  pose proof SC as SC'. unfold some_cells in SC'. pose proof sizes as (SW & SX).
  set (call := fun i i' s => do a <- slice (wsh, wd) j (i * csz_of wsh j); do b <- slice (xsh, xd) k (i' * csz_of xsh k); call2 op a b s).
  set (ext := usz (firstn (zk - m) (skipn m zsh))). set (cam0 := usz (firstn m wsh)).
  assert (E1 : (ext = if j <? k then ew else ex) /\ (if j <? k then ex else ew) = 1 /\ cam0 = size (if j <? k then fw else fx) /\ Z.to_nat (to_u 32 (Z.of_nat cam0 * Z.of_nat ext)) = size frame).
  { apply agree_iff in AG as EQ. rewrite eqShPart_iff in EQ by lia.
    destruct ag_cases as [(L & _ & _ & E3 & E4)|(L & _ & _ & E3 & E4)]; unfold ext, cam0, m, zk, zsh; [rewrite (proj2 (Nat.ltb_lt _ _)) by exact L|rewrite (proj2 (Nat.ltb_ge _ _)) by exact L].
    - rewrite E3, E4 in *. assert (B : size fw * 1 <= size fw * size (firstn (k - j) (skipn j xsh)) /\ 1 * size (firstn (k - j) (skipn j xsh)) <= size fw * size (firstn (k - j) (skipn j xsh))) by (clear - SW SC'; split; [apply Nat.mul_le_mono_l|apply Nat.mul_le_mono_r]; nia). rewrite !usz_eq by (clear - B SW SC'; lia). split; [reflexivity|]. split; [reflexivity|]. split; [reflexivity|]. unfold to_u. rewrite <- Nat2Z.inj_mul, SW, Z.mod_small by lia. lia.
    - rewrite Nat.min_r in EQ by exact L. rewrite EQ. rewrite E3, E4 in *. assert (B : size fx * 1 <= size fx * size (firstn (j - k) (skipn k wsh)) /\ 1 * size (firstn (j - k) (skipn k wsh)) <= size fx * size (firstn (j - k) (skipn k wsh))) by (clear - SX SC'; split; [apply Nat.mul_le_mono_l|apply Nat.mul_le_mono_r]; nia). rewrite !usz_eq by (clear - B SX SC'; lia). split; [reflexivity|]. split; [reflexivity|]. split; [reflexivity|]. unfold to_u. rewrite <- Nat2Z.inj_mul, SX, Z.mod_small by lia. lia. }
  destruct E1 as (E1 & E2 & E3 & ->). rewrite EF. rewrite (proj2 (Nat.eqb_neq _ _)) by lia.
  assert (GEN : (if ext =? 1 then collect (size frame) 0 (fun i s => call i i s) s
                 else if j <? k then nested cam0 ext 0 0 (fun i k s => call i k s) s
                 else nested cam0 ext 0 0 (fun i k s => call k i s) s) = calls (one op) the_pairs s).
  { pose proof pairs_array as PA. unfold array in PA. destruct (Nat.eqb_spec ext 1) as [X|X].
    - rewrite <- PA. apply collect_calls. intros i [a b] H s1. apply pairs_at in H. assert (ew = 1 /\ ex = 1) as (W1 & X1) by (destruct (j <? k); lia).
      rewrite W1, X1, Nat.div_1_r in H. apply call_at; apply H.
    - assert (E0 : 0 < ext) by (destruct (j <? k); nia). destruct (j <? k) eqn:T.
      + apply nested_calls; [rewrite PA, E3, E1; lia|]. intros p q [a b] Q H s1. apply pairs_at in H. rewrite <- E1, E2, Nat.div_1_r, Nat.div_add_l, Nat.div_small, Nat.add_0_r in H by lia. apply call_at; apply H.
      + apply nested_calls; [rewrite PA, E3, E1; lia|]. intros p q [a b] Q H s1. apply pairs_at in H. rewrite <- E1, E2, Nat.div_1_r, Nat.div_add_l, Nat.div_small, Nat.add_0_r in H by lia. apply call_at; apply H. }
  unfold call in GEN |- *. rewrite GEN. clear GEN call. pose proof (pairs_base op SD) as BASE.
  destruct EW as (VW & RW & LW), EX as (VX & RX & LX). unfold valid_arg, array in VW, VX. cbn [arr_of fst snd] in VW, RW, LW, VX, RX, LX.
  assert (SAME : j = k -> fw = fx /\ frame = fx /\ the_pairs = combine cw cx).
  { intros JK. apply agree_iff in AG as EQ. rewrite eqShPart_iff, JK, Nat.min_id in EQ by lia. assert (F : fw = fx) by (rewrite JK; exact EQ). split; [exact F|]. split; [unfold longer; rewrite F; destruct (length fx <? length fx); reflexivity|].
    unfold the_pairs, pairs_of. assert (ew = 1 /\ ex = 1) as (-> & ->) by (unfold ew, ex; rewrite JK, Nat.ltb_irrefl, Nat.sub_diag; split; reflexivity). rewrite !spread_1. reflexivity. }
  destruct op as [f| | | | |v].
  - exact BASE.
  - destruct (Nat.eqb_spec j k) as [JK|JK]; [|exact BASE]. destruct (SAME JK) as (FW & FF & EP). rewrite FF, <- FW.
    replace (wsh, wd) with (fw ++ skipn j wsh, wd) by (rewrite firstn_skipn; reflexivity).
    rewrite (size_split j) in VW. apply (direct amax fw the_pairs _ fst).
    + unfold array. rewrite FW, <- FF. exact pairs_array.
    + rewrite <- app_length, firstn_skipn. exact RW.
    + rewrite <- Nat2Z.inj_mul, <- VW. exact LW.
    + intros c _. reflexivity.
    + intros [a b] H. rewrite EP in H. apply in_combine_l in H. cbn [fst]. apply the_cells_in in H. destruct H as (i & Hi & ->). cbn [fst snd arr_of] in *. split; [reflexivity|]. apply (slice_len wd (size fw)); [exact VW|exact Hi].
    + rewrite EP. rewrite <- (map_map fst (fun c => snd (arr_of c))), map_fst_combine by (rewrite !the_cells_len; cbn [fst]; rewrite FW; reflexivity).
      unfold the_cells. rewrite map_map. cbn [arr_of fst snd]. symmetry. apply concat_slices. exact VW.
  - destruct (Nat.eqb_spec j k) as [JK|JK]; [|exact BASE]. destruct (SAME JK) as (FW & FF & EP). rewrite FF.
    replace (xsh, xd) with (fx ++ skipn k xsh, xd) by (rewrite firstn_skipn; reflexivity).
    rewrite (size_split k) in VX. apply (direct amax fx the_pairs _ snd).
    + unfold array. rewrite <- FF. exact pairs_array.
    + rewrite <- app_length, firstn_skipn. exact RX.
    + rewrite <- Nat2Z.inj_mul, <- VX. exact LX.
    + intros c _. reflexivity.
    + intros [a b] H. rewrite EP in H. apply in_combine_r in H. cbn [snd]. apply the_cells_in in H. destruct H as (i & Hi & ->). cbn [fst snd arr_of] in *. split; [reflexivity|]. apply (slice_len xd (size fx)); [exact VX|exact Hi].
    + rewrite EP. rewrite <- (map_map snd (fun c => snd (arr_of c))), map_snd_combine by (rewrite !the_cells_len; cbn [fst]; rewrite FW; reflexivity).
      unfold the_cells. rewrite map_map. cbn [arr_of fst snd]. symmetry. apply concat_slices. exact VX.
  - destruct ((j =? k) && (length wsh =? length xsh) && eqShPart (skipn j wsh) (skipn j xsh) (length wsh - j)) eqn:T; [|exact BASE].
    apply andb_prop in T. destruct T as (T & T3). apply andb_prop in T. destruct T as (T1 & T2). apply Nat.eqb_eq in T1, T2. destruct (SAME T1) as (FW & FF & EP). destruct (RC eq_refl) as (R1 & R2).
    rewrite eqShPart_iff in T3 by (rewrite skipn_length; lia). rewrite !firstn_all2 in T3 by (rewrite skipn_length; lia).
    set (csh := skipn k xsh). assert (CW : skipn j wsh = csh) by (rewrite T3, T1; reflexivity).
    rewrite FF. unfold interleave_cells. cbn [fst snd]. rewrite T1. fold csh. replace (skipn k wsh) with csh by (rewrite <- T1; symmetry; exact CW).
    assert (LC : length csh = length xsh - k) by apply skipn_length. pose proof len_fx as LF.
    unfold m_sh. rewrite (proj2 (Z.leb_le _ _)) by (rewrite app_length; cbn [length]; unfold ur; rewrite Z.mod_small; lia). cbn [bind].
    rewrite (size_split j), FW, CW in VW. rewrite (size_split k) in VX. fold csh in VX. rewrite FF in SC', SW, SX.
    set (g := fun p : arg A * arg A => Ar (2 :: csh) (snd (arr_of (fst p)) ++ snd (arr_of (snd p)))).
    assert (IN : forall c, In c the_pairs -> exists a b, c = (Ar csh a, Ar csh b) /\ length a = size csh /\ length b = size csh).
    { intros [a b] H. rewrite EP in H. apply in_combine_l in H as H1. apply in_combine_r in H as H2. apply the_cells_in in H1, H2. destruct H1 as (i & Hi & ->), H2 as (i' & Hi' & ->). cbn [fst snd] in *. rewrite CW in *. fold csh.
      eexists _, _. split; [reflexivity|]. split; [apply (slice_len wd (size fx)); [exact VW|rewrite <- FW; exact Hi]|apply (slice_len xd (size fx)); [exact VX|exact Hi']]. }
    assert (CL : forall c, In c the_pairs -> one CCouple2 c s = do _ <- two_parts amax (size csh) (size csh); Ok (g c, s)).
    { intros c H. destruct (IN c H) as (a & b & -> & La & Lb). unfold one. cbn [fst snd CellsModel.call2]. unfold p_couple2. cbn [unarg]. rewrite Nat.eqb_refl, La. unfold g. cbn [fst snd arr_of].
      rewrite (proj2 (eqShPart_iff csh csh (length csh) ltac:(lia) ltac:(lia)) eq_refl). rewrite (proj2 (Nat.leb_gt 255 (length csh))) by lia. cbn [andb negb orb]. destruct (two_parts amax (size csh) (size csh)); reflexivity. }
    assert (ARR : array fx the_pairs) by (unfold array; rewrite <- FF; exact pairs_array).
    assert (EL : length wd = length xd) by lia. assert (C1 : size csh <= length xd) by nia.
    destruct (two_parts_cases amax (size csh) (size csh) ltac:(lia)) as [(Q & TQ)|(Q & TQ)]; rewrite TQ in CL; cbn [bind] in CL.
    2: { rewrite calls_fail; [|intros N; unfold array in ARR; rewrite N in ARR; cbn [length] in ARR; lia|exact CL]. destruct (two_parts_cases amax (length wd) (length xd) ltac:(lia)) as [(B & _)|(_ & ->)]; [lia|reflexivity]. }
    destruct (two_parts_cases amax (length wd) (length xd) ltac:(lia)) as [(B & ->)|(B & ->)]; cbn [bind].
    + rewrite !usz_eq by lia. apply (direct amax fx the_pairs _ g); [exact ARR|cbn [length]; lia|rewrite size_cons; nia|exact CL| |].
      * intros c H. destruct (IN c H) as (a & b & -> & La & Lb). unfold g. split; [reflexivity|]. unfold valid_arg, array. cbn [arr_of fst snd]. rewrite app_length, size_cons. lia.
      * rewrite turns_ok by lia. rewrite EP. unfold the_cells. cbn [fst snd]. rewrite FW, CW. fold csh. rewrite combine_map_seq, map_map. reflexivity.
    + rewrite (calls_map _ g) by exact CL. right. split; [|reflexivity]. intros t (F & _ & F2). assert (t = 2 :: csh) as ->.
      { assert (N : the_pairs <> []) by (intros N; unfold array in ARR; rewrite N in ARR; cbn [length] in ARR; lia). destruct the_pairs; [congruence|]. cbn [map] in F. apply Forall_inv in F. symmetry. exact F. }
      rewrite size_cons in F2. nia.
  - exact BASE.
  - assert (CC : forall sh' (d' : list A) k', array (firstn k' sh') (the_cells (sh', d') k') -> firstn k' sh' = frame -> calls (one (CConst2 v)) the_pairs s = calls (fun _ s => Ok (v, s)) (the_cells (sh', d') k') s).
    { intros sh' d' k' L L2. rewrite !(const_calls v) by reflexivity. unfold array in L. rewrite L, L2, <- pairs_array. reflexivity. }
    destruct ag_cases as [(_ & EF' & _)|(_ & EF' & _)].
    + rewrite (CC xsh xd k) by (try (symmetry; exact EF'); exact (the_cells_len (xsh, xd) k)). rewrite EF'. rewrite EF' in SC. apply (as_const amax None box); auto.
    + rewrite (CC wsh wd j) by (try (symmetry; exact EF'); exact (the_cells_len (wsh, wd) j)). rewrite EF'. rewrite EF' in SC. apply (as_const amax None box); auto.
Qed.
End P.
