(** C50: = ≠ < ≤ > ≥ compare every pair of atoms, whatever the storage of the arguments *)
From Verif Require Import Base TagModel TagSpec TagProof NumSpec NumProof ArrSpec SqueezeModel SqueezeProof SqueezeProof2 HashModel CompareModel SearchFlat PervModel PervSpec PervProof PervProof2 PervProof3 PervProof4 PervProof5 PervProof6.
From Coq Require Import List Lia.
Open Scope nat_scope.
(** For all arguments, of any element types, ranks and nesting: the result is the comparison of every pair of atoms in the shape the leading axes give, and there is an error
    exactly where there is no such result: where shapes disagree or an order is asked of something that is not a number or a character. *)
Theorem C50_compares_every_pair : forall decomp junk o w x, (forall p q, decomp p q = decomp q p) -> 64 <= length junk -> wfa w -> wfa x ->
  forall n, depth w + depth x < n -> compares (same decomp) o (tree_of w) (tree_of x) (cmp_c2 decomp junk n o w x).
Proof. intros decomp junk o w x SYD LJ W X n D. apply c2_ok; assumption. Qed.
Print Assumptions C50_compares_every_pair.
(** ** The specification gives one result *)
Lemma iff_bool (c c' : bool) P : (c = true <-> P) -> (c' = true <-> P) -> c = c'.
Proof. intros A B. destruct c, c'; try reflexivity; [symmetry; apply B, A; reflexivity|apply A, B; reflexivity]. Qed.
Lemma says_fun s o a b c : says s o a b c -> forall c', says s o a b c' -> c = c'.
Proof.
  intros H c' H'. inversion H; subst; inversion H'; subst; try congruence; try (eapply iff_bool; eassumption);
  repeat match goal with
  | K : _ = VNaN \/ _ = VNaN |- _ => destruct K
  | K : is_number (VChr _) |- _ => destruct K as [K|[? K]]; discriminate
  | K : is_number (VOth _) |- _ => destruct K as [K|[? K]]; discriminate
  end; try congruence;
  try match goal with K : forall q, VOth ?p <> VOth q |- _ => destruct (K p eq_refl) end.
Qed.
Lemma Forall2_fun {A} (R : A -> rv -> Prop) : forall rs, Forall (fun r => forall a r', R a r -> R a r' -> r = r') rs -> forall l rs', Forall2 R l rs -> Forall2 R l rs' -> rs = rs'.
Proof. induction 1 as [|r rs H _ IH]; intros l rs' F F'; inversion F; subst; inversion F'; subst; [reflexivity|]. f_equal; eauto. Qed.
Lemma perv_fun s o : forall r t u r', perv s o t u r -> perv s o t u r' -> r = r'.
Proof.
  apply (rv_ind' (fun r => forall t u r', perv s o t u r -> perv s o t u r' -> r = r')).
  - intros c t u r' H H'. inversion H; subst. inversion H'; subst. f_equal. eapply says_fun; eassumption.
  - intros sh rs IH t u r' H H'. destruct t as [a|a l], u as [b|b m].
    + inversion H.
    + inversion H; subst. inversion H'; subst. f_equal. eapply (Forall2_fun (perv s o (TA a))); [|eassumption..]. apply Forall_forall. intros q1 I v q2 P P'. rewrite Forall_forall in IH. eapply IH; eassumption.
    + inversion H; subst. inversion H'; subst. f_equal. eapply (Forall2_fun (fun v => perv s o v (TA b))); [|eassumption..]. apply Forall_forall. intros q1 I v q2 P P'. rewrite Forall_forall in IH. eapply IH; eassumption.
    + assert (G : forall l' m' rs', pw s o l' m' rs -> pw s o l' m' rs' -> rs = rs') by (intros l' m' rs' F F'; eapply (Forall2_fun (fun p => perv s o (fst p) (snd p))); [|eassumption..]; apply Forall_forall; intros q1 I v q2 P P'; rewrite Forall_forall in IH; eapply IH; eassumption).
      assert (C : forall e (q : list tree), e = [] -> copies (size e) q = q) by (intros e q ->; apply copies_1).
      apply perv_inv in H, H'. destruct H as [(e & rs1 & E & Q & F)|(e & rs1 & E & Q & F)], H' as [(e' & rs' & E' & Q' & F')|(e' & rs' & E' & Q' & F')]; inversion Q; subst rs1 sh r'; clear Q.
      * assert (e = e') by (apply (app_inv_head a); congruence). subst e'. f_equal. eauto.
      * assert (N : e = [] /\ e' = []) by (rewrite E' in E; rewrite <- app_assoc in E; rewrite <- (app_nil_r b) in E at 1; apply app_inv_head in E; symmetry in E; apply app_eq_nil in E; tauto). rewrite (C e) in F by apply N. rewrite (C e') in F' by apply N. destruct N as [-> ->]. rewrite app_nil_r in E. subst b. f_equal. eauto.
      * assert (N : e = [] /\ e' = []) by (rewrite E' in E; rewrite <- app_assoc in E; rewrite <- (app_nil_r a) in E at 1; apply app_inv_head in E; symmetry in E; apply app_eq_nil in E; tauto). rewrite (C e) in F by apply N. rewrite (C e') in F' by apply N. destruct N as [-> ->]. rewrite app_nil_r in E. subst a. f_equal. eauto.
      * assert (e = e') by (apply (app_inv_head b); congruence). subst e'. f_equal. eauto.
Qed.
(** Equal arguments give equal results: the types of elements, the contents of memory after them and the choice between typed and boxed arrays make no difference. *)
Theorem C50_storage_makes_no_difference : forall decomp junk junk' o w x w' x' n, (forall p q, decomp p q = decomp q p) -> 64 <= length junk -> 64 <= length junk' -> wfa w -> wfa x -> wfa w' -> wfa x' ->
  tree_of w = tree_of w' -> tree_of x = tree_of x' -> depth w + depth x < n -> depth w' + depth x' < n -> cmp_c2 decomp junk n o w x = cmp_c2 decomp junk' n o w' x'.
Proof.
  intros decomp junk junk' o w x w' x' n SYD LJ LJ' W X W' X' TW TX D D'. pose proof (c2_ok decomp SYD junk LJ n o w x D W X) as A. pose proof (c2_ok decomp SYD junk' LJ' n o w' x' D' W' X') as B. rewrite <- TW, <- TX in B. unfold PervProof3.okres, compares in *.
  destruct (cmp_c2 decomp junk n o w x) as [r| |], (cmp_c2 decomp junk' n o w' x') as [r'| |]; try contradiction; try reflexivity; [f_equal; eapply perv_fun; eassumption|destruct (B _ A)|destruct (A _ B)].
Qed.
Print Assumptions C50_storage_makes_no_difference.
(** Two arrays of numbers and characters of one shape never give an error, and every bit is that of the two elements at its place. *)
Theorem C50_bit_at_every_place : forall decomp junk o sh we wm xe xm n, (forall p q, decomp p q = decomp q p) -> 64 <= length junk -> wfa (Ta sh we wm) -> wfa (Ta sh xe xm) -> 4 < n ->
  exists bits, cmp_c2 decomp junk n o (Ta sh we wm) (Ta sh xe xm) = Ok (RArr sh (map RBit bits)) /\ length bits = size sh /\ forall i, i < size sh -> says (same decomp) o (vof we (nth i wm 0%Z)) (vof xe (nth i xm 0%Z)) (nth i bits false).
Proof.
  intros decomp junk o sh we wm xe xm n SYD LJ W X N. pose proof (c2_ok decomp SYD junk LJ n o (Ta sh we wm) (Ta sh xe xm) N W X) as A. rewrite !tree_Ta in A. destruct W as (NW & LW & RW), X as (NX & LX & RX).
  assert (V : forall e z, e <> EB -> raw_ok e z -> is_number (vof e z) \/ exists c, vof e z = VChr c). { intros e z NE R. destruct e; try congruence; cbn [vof] in *; try (left; right; eexists; reflexivity); try (right; eexists; reflexivity). left. destruct R as [R0 R1]. apply (isF64_iff z R0) in R1. destruct (f_num z R0 R1) as [[_ ->]|[_ ->]]; [left; reflexivity|right; eexists; reflexivity]. }
  assert (EX : forall a b, is_number a \/ (exists c, a = VChr c) -> is_number b \/ (exists c, b = VChr c) -> exists c, says (same decomp) o a b c).
  { assert (BL : forall P, {P} + {~ P} -> exists c : bool, c = true <-> P) by (intros P [H|H]; [exists true; tauto|exists false; split; [discriminate|tauto]]).
    assert (HD : forall x y, {holds o x y} + {~ holds o x y}) by (intros x y; destruct o; cbn [holds]; [apply Z.eq_dec|destruct (Z.eq_dec x y); [right|left]; tauto|apply Z_gt_dec|apply Z_ge_dec|apply Z_lt_dec|apply Z_le_dec]).
    intros a b [HA|[c HA]] [HB|[d HB]].
    - assert (NN : (exists x y, a = VNum x /\ b = VNum y) \/ a = VNaN \/ b = VNaN) by (destruct HA as [->|[x ->]], HB as [->|[y ->]]; eauto). destruct NN as [(x & y & -> & ->)|NN]; [destruct (BL _ (HD x y)) as [r R]; exists r; apply s_num; exact R|].
      destruct (BL (o = ONe)) as [r R]; [destruct o; (left; reflexivity) || (right; discriminate)|]. exists r. apply s_nan; auto.
    - subst b. destruct (BL (o = ONe \/ o = OLt \/ o = OLe)) as [r R]; [destruct o; (left; tauto) || (right; intros [H|[H|H]]; discriminate)|]. exists r. apply s_num_chr; auto.
    - subst a. destruct (BL (o = ONe \/ o = OGt \/ o = OGe)) as [r R]; [destruct o; (left; tauto) || (right; intros [H|[H|H]]; discriminate)|]. exists r. apply s_chr_num; auto.
    - subst a b. destruct (BL _ (HD c d)) as [r R]; exists r; apply s_chr; exact R. }
  assert (WN : forall i, i < size sh -> is_number (vof we (nth i wm 0%Z)) \/ exists c, vof we (nth i wm 0%Z) = VChr c) by (intros i I; apply V; [exact NW|eapply raw_nth; eauto; lia]).
  assert (XN : forall i, i < size sh -> is_number (vof xe (nth i xm 0%Z)) \/ exists c, vof xe (nth i xm 0%Z) = VChr c) by (intros i I; apply V; [exact NX|eapply raw_nth; eauto; lia]).
  assert (ALL : forall l, (forall i, In i l -> i < size sh) -> exists bits, Forall2 (fun i c => says (same decomp) o (vof we (nth i wm 0%Z)) (vof xe (nth i xm 0%Z)) c) l bits).
  { induction l as [|i l IH]; intros B; [exists []; constructor|]. destruct IH as [bits F]; [intros; apply B; right; assumption|]. pose proof (B i (or_introl eq_refl)) as BI. destruct (EX _ _ (WN i BI) (XN i BI)) as [c C]. exists (c :: bits). constructor; assumption. }
  destruct (ALL (seq 0 (size sh))) as [bits F]; [intros i I; apply in_seq in I; lia|]. assert (P : perv (same decomp) o (TN sh (map (leaf we) (firstn (size sh) wm))) (TN sh (map (leaf xe) (firstn (size sh) xm))) (RArr sh (map RBit bits))).
  { apply pervs. unfold pw. rewrite !firstn_nth, !map_map, combine_maps by lia. apply Forall2_ml. cbn [fst snd]. clear - F. induction F; cbn [map]; constructor; auto. apply p_atoms. assumption. }
  assert (LB : length bits = size sh) by (assert (G : forall l, Forall2 (fun i c => says (same decomp) o (vof we (nth i wm 0%Z)) (vof xe (nth i xm 0%Z)) c) l bits -> length bits = length l) by (intros l Q; clear - Q; induction Q; cbn [length]; congruence); rewrite (G _ F), seq_length; reflexivity). exists bits. split; [|split; [exact LB|]].
  - unfold PervProof3.okres, compares in A. destruct (cmp_c2 _ _ _ _ _ _) as [r| |]; [f_equal; eapply perv_fun; eassumption|destruct (A _ P)|destruct A].
  - intros i I. clear - F I. assert (G : forall l bits, Forall2 (fun i c => says (same decomp) o (vof we (nth i wm 0%Z)) (vof xe (nth i xm 0%Z)) c) l bits -> forall i, i < length l -> says (same decomp) o (vof we (nth (nth i l 0) wm 0%Z)) (vof xe (nth (nth i l 0) xm 0%Z)) (nth i bits false)).
    { induction 1 as [|a c l cs H _ IH]; intros j J; cbn [length] in J; [lia|]. destruct j as [|j]; cbn [nth]; [exact H|apply IH; lia]. }
    specialize (G _ _ F i). rewrite seq_length, seq_nth in G by lia. apply G. lia.
Qed.
Print Assumptions C50_bit_at_every_place.
(** ** Cases *)
Definition pad : list Z := repeat 170%Z 64.
Definition dc : Z -> Z -> bool := Z.eqb.
Definition i8s : av := Ta [3] EI8 ([1; 2; -3]%Z ++ pad).
(* 1.0 2.5 -3.0 *)
Definition f64s : av := Ta [3] EF64 ([4607182418800017408; 4612811918334230528; 13837309855095848960]%Z ++ pad).
Definition chars : av := Ta [2; 3] EC8 ([97; 98; 99; 97; 98; 99]%Z ++ pad).
Definition chars3 : av := Ta [2] EC16 ([98; 98]%Z ++ pad).
Example C50_wf : wfa i8s /\ wfa f64s /\ wfa chars /\ wfa chars3 /\ wfa (Bx [2] [i8s; At 4607182418800017408%Z]) /\ (forall p q, dc p q = dc q p) /\ 64 <= length pad.
Proof.
  assert (FK : forall z, (0 <= z < 2 ^ 64)%Z -> isF64 z = true -> raw_ok EF64 z) by (intros z Z1 Z2; split; [exact Z1|apply isF64_iff; assumption]).
  assert (I8 : wfa i8s). { split; [discriminate|]. split; [cbn; lia|]. cbn [i8s firstn app size fold_right Nat.mul Nat.add]. repeat constructor; cbn; lia. }
  split; [exact I8|]. split; [|split; [|split; [|split; [|split]]]].
  - split; [discriminate|]. split; [cbn; lia|]. repeat constructor; apply FK; try reflexivity; lia.
  - split; [discriminate|]. split; [cbn; lia|]. repeat constructor; cbn; lia.
  - split; [discriminate|]. split; [cbn; lia|]. repeat constructor; cbn; lia.
  - split; [reflexivity|]. split; [exact I8|]. split; [|exact Logic.I]. split; [unfold word; lia|]. intros n H. vm_compute in H. discriminate.
  - intros p q. apply Z.eqb_sym.
  - cbn. lia.
Qed.
Example C50_widths : cmp_c2 dc pad 5 OLt i8s f64s = Ok (RArr [3] [RBit false; RBit true; RBit false]).
Proof. vm_compute. reflexivity. Qed.
Example C50_leading : cmp_c2 dc pad 5 OEq chars3 chars = Ok (RArr [2; 3] [RBit false; RBit true; RBit false; RBit false; RBit true; RBit false]).
Proof. vm_compute. reflexivity. Qed.
Example C50_kinds : cmp_c2 dc pad 5 OLe i8s (Ta [3] EC8 ([0; 1; 2]%Z ++ pad)) = Ok (RArr [3] [RBit true; RBit true; RBit true]).
Proof. vm_compute. reflexivity. Qed.
Example C50_nested : cmp_c2 dc pad 6 OGe (Bx [2] [i8s; At 4607182418800017408%Z]) (Ta [2] EI8 ([2; 1]%Z ++ pad)) = Ok (RArr [2] [RArr [3] [RBit false; RBit true; RBit false]; RBit true]).
Proof. vm_compute. reflexivity. Qed.
Example C50_shapes : cmp_c2 dc pad 5 OEq i8s chars = Err.
Proof. vm_compute. reflexivity. Qed.
(** a function has no place in the order, but is not equal to a number *)
Example C50_function : cmp_c2 dc pad 5 OLt (At (65523 * 2 ^ 48 + 64)%Z) i8s = Err /\ cmp_c2 dc pad 5 ONe (At (65523 * 2 ^ 48 + 64)%Z) i8s = Ok (RArr [3] [RBit true; RBit true; RBit true]).
Proof. vm_compute. split; reflexivity. Qed.
