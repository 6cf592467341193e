(** The comparison functions on all arguments *)
From Verif Require Import Base TagModel TagSpec TagProof NumSpec NumProof ArrSpec SqueezeModel SqueezeProof SqueezeProof2 HashModel CompareModel SearchFlat PervModel PervSpec PervProof PervProof2 PervProof3 PervProof4.
From Coq Require Import List Lia.
Open Scope nat_scope.
Section W.
Variable decomp : Z -> Z -> bool.
Hypothesis SYD : forall p q, decomp p q = decomp q p.
Variable junk : list Z.
Hypothesis LJ : 64 <= length junk.
Notation sm := (same decomp).
Notation okres := (okres sm).
Lemma SY p q : sm p q = sm q p.
Proof. unfold same. rewrite Z.eqb_sym, SYD. destruct (isVal p), (isVal q); reflexivity. Qed.
Definition leaf (e : elt) (z : Z) : tree := TA (vof e z).
Lemma Forall2_ml {A B C} (f : A -> B) (R : B -> C -> Prop) l r : Forall2 R (map f l) r <-> Forall2 (fun a c => R (f a) c) l r.
Proof. revert r. induction l as [|a l IH]; intros r; cbn [map]; split; intros H; inversion H; subst; constructor; auto; apply IH; assumption. Qed.
(** ** One type *)
Lemma combine_maps {A B C} (f : A -> B) (g : A -> C) : forall l, combine (map f l) (map g l) = map (fun a => (f a, g a)) l.
Proof. induction l as [|a l IH]; [reflexivity|]. cbn [map combine]. rewrite IH. reflexivity. Qed.
Lemma raw_nth e mem n i : Forall (raw_ok e) (firstn n mem) -> n <= length mem -> i < n -> raw_ok e (nth i mem 0%Z).
Proof. intros R L I. rewrite firstn_nth in R by lia. rewrite Forall_forall in R. apply R. apply in_map_iff. exists i. split; [reflexivity|]. apply in_seq. lia. Qed.
Lemma kAA_pw o e wm xm n : e <> EB -> n + 64 <= length wm -> n + 64 <= length xm -> Forall (raw_ok e) (firstn n wm) -> Forall (raw_ok e) (firstn n xm) ->
  exists bits, cmp_kAA o e wm xm n = Ok bits /\ pw sm o (map (leaf e) (firstn n wm)) (map (leaf e) (firstn n xm)) (map RBit bits).
Proof.
  intros NB LW LX RW RX. rewrite kAA_ok by assumption. eexists. split; [reflexivity|]. unfold pw. rewrite !firstn_nth, !map_map, combine_maps by lia. apply Forall2_maps. intros i I. apply in_seq in I. cbn [fst snd]. apply p_atoms. apply aa_says; [exact NB| |]; eapply raw_nth; eauto; lia.
Qed.
Lemma fits_wider a b z : (elt_no a < elt_no b)%Z -> (elNum a && elNum b) || (elChr a && elChr b) = true -> raw_ok a z -> fits b (vof a z).
Proof.
  intros L K R. destruct a, b; cbn [elt_no elNum elChr andb orb] in *; try discriminate; try lia; cbn [fits vof raw_ok] in *; try (right; eexists; reflexivity); try (exists z; split; [lia|reflexivity]); try (exists z; reflexivity).
Qed.
Lemma cpy_ok a b mem n : (elt_no a < elt_no b)%Z -> (elNum a && elNum b) || (elChr a && elChr b) = true -> n <= length mem -> Forall (raw_ok a) (firstn n mem) ->
  exists m, cpyArr junk a b mem n = Ok m /\ n + 64 <= length m /\ Forall (raw_ok b) (firstn n m) /\ map (leaf b) (firstn n m) = map (leaf a) (firstn n mem).
Proof.
  intros LT K L R. unfold cpyArr. assert (Q : exists l, mapM (conv1 a b) (firstn n mem) = Ok l /\ length l = length (firstn n mem) /\ Forall (raw_ok b) l /\ map (leaf b) l = map (leaf a) (firstn n mem)).
  { induction R as [|z l R _ IH]; [exists []; repeat split; constructor|]. destruct IH as (l' & E & LL & F & M). destruct (conv1_ok a b z R (fits_wider a b z LT K R)) as (y & EY & V & RY). cbn [mapM]. rewrite EY, E. cbn [bind]. exists (y :: l'). split; [reflexivity|]. split; [cbn [length]; lia|]. split; [constructor; auto|].
    cbn [map]. rewrite M. unfold leaf at 1 3. rewrite V. reflexivity. }
  destruct Q as (l & E & LL & F & M). rewrite E. cbn [bind]. rewrite firstn_length in LL. exists (l ++ junk). split; [reflexivity|]. assert (FN : firstn n (l ++ junk) = l) by (rewrite firstn_app, firstn_all2 by lia; replace (n - length l) with 0 by lia; cbn [firstn]; apply app_nil_r).
  rewrite FN, app_length. repeat split; auto; lia.
Qed.
Definition flat (n : nat) (e : elt) (mem : list Z) : Prop := e <> EB /\ n + 64 <= length mem /\ Forall (raw_ok e) (firstn n mem).
Lemma make_eq_ok we xe wm xm n : flat n we wm -> flat n xe xm ->
  exists p, make_eq junk we xe wm xm n n = Ok p /\ match p with None => True | Some (e, wm', xm') => flat n e wm' /\ flat n e xm' /\ map (leaf e) (firstn n wm') = map (leaf we) (firstn n wm) /\ map (leaf e) (firstn n xm') = map (leaf xe) (firstn n xm) end.
Proof.
  intros FW FX. pose proof FW as (NW & LW & RW). pose proof FX as (NX & LX & RX). unfold make_eq. destruct (Z.eqb_spec (elt_no we) (elt_no xe)) as [E|NE].
  - assert (we = xe) by (destruct we, xe; cbn [elt_no] in E; try reflexivity; discriminate). subst xe. eexists. split; [reflexivity|]. cbn beta iota. repeat split; assumption.
  - destruct ((elNum we && elNum xe) || (elChr we && elChr xe)) eqn:K; [|eexists; split; [reflexivity|exact Logic.I]]. destruct (Z.ltb_spec (elt_no we) (elt_no xe)).
    + destruct (cpy_ok we xe wm n) as (m & E & L & R & M); auto; [lia|]. rewrite E. cbn [bind]. eexists. split; [reflexivity|]. cbn beta iota. repeat split; auto.
    + assert (K' : (elNum xe && elNum we) || (elChr xe && elChr we) = true) by (rewrite (andb_comm (elNum xe)), (andb_comm (elChr xe)); exact K). destruct (cpy_ok xe we xm n) as (m & E & L & R & M); auto; [lia..|]. rewrite E. cbn [bind]. eexists. split; [reflexivity|]. cbn beta iota. repeat split; auto.
Qed.
Lemma pervs o sh l m rs : pw sm o l m rs -> perv sm o (TN sh l) (TN sh m) (RArr sh rs).
Proof. intros P. pose proof (perv_less sm o sh [] l m (RArr sh rs)) as Q. rewrite app_nil_r in Q. apply Q. exists rs. change (size []) with 1. rewrite copies_1. auto. Qed.
Lemma tree_Ta sh e mem : tree_of (Ta sh e mem) = TN sh (map (leaf e) (firstn (size sh) mem)).
Proof. reflexivity. Qed.
(** ** Recursion into elements *)
Section R.
Variable rec : op -> av -> av -> res rv.
Lemma rec_ok swapped o w x : wfa w -> wfa x -> is_arr w \/ is_arr x -> (forall o wl xl a b, elems w = Ok wl -> elems x = Ok xl -> In a wl -> In b xl -> okres o (tree_of a) (tree_of b) (rec o a b) /\ okres o (tree_of b) (tree_of a) (rec o b a)) ->
  okres o (tree_of w) (tree_of x) (cmp_rec rec swapped o w x).
Proof.
  intros W X AR H. assert (A : okres o (tree_of w) (tree_of x) (each2 (rec o) w x)) by (apply each2_ok; auto using SY; intros wl xl a b EW EX I J; exact (proj1 (H o wl xl a b EW EX I J))).
  assert (B : okres o (tree_of w) (tree_of x) (each2 (rec (flip o)) x w)). { apply okres_flip; [exact SY|]. apply each2_ok; auto using SY; [tauto|]. intros xl wl b a EX EW J I. exact (proj2 (H (flip o) wl xl a b EW EX I J)). }
  unfold cmp_rec. destruct o, swapped; cbn [negb]; assumption.
Qed.
Hypothesis ATOMS : forall o a b, raw_ok EB a -> raw_ok EB b -> okres o (TA (den a)) (TA (den b)) (rec o (At a) (At b)).
Lemma Ta_elems sh e mem l a : wfa (Ta sh e mem) -> elems (Ta sh e mem) = Ok l -> In a l -> exists w, a = At w /\ raw_ok EB w.
Proof.
  intros W E I. destruct (elems_ok _ W) as (l' & E' & _ & F & _). rewrite E in E'. inversion E'; subst l'. rewrite Forall_forall in F. specialize (F a I). cbn [elems] in E. pose proof (mapM_cases (fun i => do z <- rd mem i; do v <- conv1 e EB z; Ok (At v)) (seq 0 (size sh))) as MC. rewrite E in MC.
  clear - MC I F. induction MC as [|i c li lr Q MC IH]; [destruct I|]. destruct I as [->|I]; [|exact (IH I)]. destruct (rd mem i) as [z| |]; cbn [bind] in Q; try discriminate. destruct (conv1 e EB z) as [v| |]; cbn [bind] in Q; try discriminate. inversion Q; subst a. exists v. auto.
Qed.
Lemma AA_same swapped o sh we wm xe xm : wfa (Ta sh we wm) -> wfa (Ta sh xe xm) -> okres o (tree_of (Ta sh we wm)) (tree_of (Ta sh xe xm)) (cmp_AA junk rec swapped o (Ta sh we wm) (Ta sh xe xm)).
Proof.
  intros W X. unfold cmp_AA. rewrite Nat.eqb_refl. cbn [negb]. replace (eqShPart sh sh (length sh)) with true by (symmetry; apply part_ok; [lia|exists []; rewrite app_nil_r; reflexivity]). cbn [negb].
  pose proof W as FW. pose proof X as FX. cbn [wfa] in FW, FX. destruct (make_eq_ok we xe wm xm (size sh) FW FX) as (p & E & P). rewrite E. cbn [bind]. destruct p as [[[e wm'] xm']|].
  - destruct P as (FW' & FX' & MW & MX). rewrite !tree_Ta, <- MW, <- MX. destruct FW' as (NB & LW & RW), FX' as (_ & LX & RX). destruct (Nat.eqb_spec (size sh) 0) as [Z0|NZ]; cbn [bind].
    + cbn [PervProof3.okres compares]. apply pervs. rewrite Z0. constructor.
    + destruct (kAA_pw o e wm' xm' (size sh) NB LW LX RW RX) as (bits & EB' & PW). rewrite EB'. cbn [bind PervProof3.okres compares]. apply pervs. exact PW.
  - apply rec_ok; [exact W|exact X|left; exact Logic.I|]. intros o' wl xl a b EW EX I J. destruct (Ta_elems _ _ _ _ _ W EW I) as (u & -> & U), (Ta_elems _ _ _ _ _ X EX J) as (v & -> & V). split; apply ATOMS; assumption.
Qed.
End R.
Lemma SA_typed rec swapped o w sh e mem : raw_ok EB w -> wfa (Ta sh e mem) -> okres o (TA (den w)) (tree_of (Ta sh e mem)) (cmp_SA decomp rec swapped o w (Ta sh e mem)).
Proof.
  intros W (NB & L & R). unfold cmp_SA. apply okres_flip; [exact SY|]. rewrite tree_Ta. assert (INV : forall r, perv sm (flip o) (TN sh (map (leaf e) (firstn (size sh) mem))) (TA (den w)) r <-> exists rs, r = RArr sh rs /\ Forall2 (fun z => perv sm (flip o) (leaf e z) (TA (den w))) (firstn (size sh) mem) rs).
  { intros r. split; [intros H; inversion H; subst; match goal with K : Forall2 _ (map _ _) _ |- _ => apply Forall2_ml in K; eexists; split; [reflexivity|exact K] end|intros (rs & -> & F); apply p_left; apply Forall2_ml; exact F]. }
  destruct (Nat.eqb_spec (size sh) 0) as [Z0|NZ]; cbn [bind].
  - apply INV. exists []. split; [reflexivity|]. rewrite Z0. constructor.
  - pose proof (kAS_ok decomp (flip o) e mem w (size sh) NB L R W) as K. destruct (cmp_kAS _ _ _ _ _ _) as [r| |]; cbn [bind PervProof3.okres compares]; [| |exact K].
    + apply INV. eexists. split; [reflexivity|]. clear - K. induction K; cbn [map]; constructor; auto. apply p_atoms. assumption.
    + destruct K as (z & I & K). intros r Q. apply INV in Q. destruct Q as (rs & _ & F). clear - I K F. induction F as [|a b l r P F IH]; [destruct I|]. destruct I as [->|I]; [|exact (IH I)]. inversion P; subst. eapply K. eassumption.
Qed.
(** ** Different ranks *)
Lemma combine_app {A B} : forall (a : list A) (b : list B) c d, length a = length b -> combine (a ++ c) (b ++ d) = combine a b ++ combine c d.
Proof. induction a as [|u a IH]; intros [|v b] c d L; cbn [length] in L; try lia; [reflexivity|]. cbn [app combine]. rewrite IH by lia. reflexivity. Qed.
Lemma combine_cells {I A B} k (f : I -> A) (cell : I -> list B) : forall l, (forall i, In i l -> length (cell i) = k) -> combine (copies k (map f l)) (flat_map cell l) = flat_map (fun i => map (fun y => (f i, y)) (cell i)) l.
Proof.
  unfold copies. induction l as [|i l IH]; intros H; [reflexivity|]. cbn [map flat_map]. rewrite combine_app by (rewrite repeat_length; symmetry; apply H; left; reflexivity). rewrite IH by (intros; apply H; right; assumption). f_equal. rewrite <- (H i (or_introl eq_refl)). apply combine_repeat.
Qed.
Lemma cells_flat {A} k : forall n a (m : list A), (a + n) * k <= length m -> firstn (n * k) (skipn (a * k) m) = flat_map (fun i => firstn k (skipn (i * k) m)) (seq a n).
Proof.
  induction n as [|n IH]; intros a m L; [reflexivity|]. cbn [seq flat_map]. rewrite <- IH by lia. replace (S n * k) with (k + n * k) by lia. replace (S a * k) with (k + a * k) by lia. rewrite <- (firstn_skipn k (skipn (a * k) m)) at 1. rewrite firstn_app, firstn_length, skipn_length, Nat.min_l by lia.
  replace (k + n * k - k) with (n * k) by lia. rewrite firstn_all2 by (rewrite firstn_length; lia). f_equal. f_equal. clear. revert m. generalize (a * k) as q. intros q m. revert m. induction q as [|q IHq]; intros m; [rewrite Nat.add_0_r; reflexivity|]. destruct m as [|v m]; [rewrite !skipn_nil; reflexivity|]. rewrite <- plus_n_Sm. cbn [skipn]. apply IHq.
Qed.
Lemma parts_ok {I} (R : I -> rv -> Prop) (ok : I -> list rv -> Prop) e : (forall i r, R i r -> exists rs, r = RArr e rs /\ ok i rs) -> forall l rs, Forall2 R l rs -> exists ls, parts rs = Ok (concat ls) /\ Forall2 ok l ls.
Proof.
  intros H l rs F. induction F as [|i r l rs Q F IH]; [exists []; split; [reflexivity|constructor]|]. destruct (H i r Q) as (d & -> & K). destruct IH as (ls & E & G). cbn [parts]. rewrite E. cbn [bind]. exists (d :: ls). split; [reflexivity|constructor; auto].
Qed.
Lemma copies_map {A B} (f : A -> B) k l : copies k (map f l) = map f (copies k l).
Proof. unfold copies. induction l as [|a l IH]; [reflexivity|]. cbn [map flat_map]. rewrite map_app, <- IH. f_equal. clear. induction k as [|k IH]; [reflexivity|]. cbn [repeat map]. rewrite IH. reflexivity. Qed.
Lemma copies_in {A} k (l : list A) a : In a (copies k l) -> In a l.
Proof. unfold copies. rewrite in_flat_map. intros (b & B & I). apply repeat_spec in I. congruence. Qed.
Lemma in_cell {A} k a n (m : list A) z : a + k <= n -> In z (firstn k (skipn a m)) -> In z (firstn n m).
Proof.
  intros L I. rewrite firstn_skipn_comm in I. assert (S1 : forall (l : list A) q, In z (skipn q l) -> In z l) by (intros l q H; rewrite <- (firstn_skipn q l); apply in_or_app; right; exact H).
  assert (S2 : forall (l : list A) q, In z (firstn q l) -> In z l) by (intros l q H; rewrite <- (firstn_skipn q l); apply in_or_app; left; exact H).
  apply S1 in I. apply (S2 (firstn n m) (a + k)). rewrite firstn_firstn, Nat.min_l by lia. exact I.
Qed.
Section L.
Variable rec : op -> av -> av -> res rv.
Lemma lead_ok o wb ssh se sm_ e be bm : (forall o sh we wm xe xm, wfa (Ta sh we wm) -> wfa (Ta sh xe xm) -> okres o (tree_of (Ta sh we wm)) (tree_of (Ta sh xe xm)) (rec o (Ta sh we wm) (Ta sh xe xm))) ->
  (forall o w sh e mem, raw_ok EB w -> wfa (Ta sh e mem) -> okres o (TA (den w)) (tree_of (Ta sh e mem)) (rec o (At w) (Ta sh e mem)) /\ okres o (tree_of (Ta sh e mem)) (TA (den w)) (rec o (Ta sh e mem) (At w))) ->
  wfa (Ta ssh se sm_) -> wfa (Ta (ssh ++ e) be bm) -> size (ssh ++ e) <> 0 ->
  let oo := if wb : bool then flip o else o in okres oo (tree_of (Ta ssh se sm_)) (tree_of (Ta (ssh ++ e) be bm)) (lead_arith junk rec o wb ssh se sm_ (ssh ++ e) be bm).
Proof.
  intros H1 H2 WS WB NZ oo. set (call := fun s b => if wb then rec o b s else rec o s b).
  assert (C1 : forall sh we wm xe xm, wfa (Ta sh we wm) -> wfa (Ta sh xe xm) -> okres oo (tree_of (Ta sh we wm)) (tree_of (Ta sh xe xm)) (call (Ta sh we wm) (Ta sh xe xm))).
  { intros. unfold call, oo. destruct wb; [|apply H1; assumption]. apply okres_flip; [exact SY|]. rewrite flip_flip. apply H1; assumption. }
  assert (C2 : forall w sh e mem, raw_ok EB w -> wfa (Ta sh e mem) -> okres oo (TA (den w)) (tree_of (Ta sh e mem)) (call (At w) (Ta sh e mem))).
  { intros. unfold call, oo. destruct wb; [|apply H2; assumption]. apply okres_flip; [exact SY|]. rewrite flip_flip. apply H2; assumption. }
  unfold lead_arith. fold call. rewrite firstn_app, skipn_app, Nat.sub_diag, firstn_all, skipn_all. cbn [firstn skipn app]. rewrite app_nil_r. set (csz := size e) in *.
  pose proof WS as (NS & LS & RS). pose proof WB as (NB & LB & RB). rewrite size_app in *. fold csz in LB, RB, NZ.
  change (if wb then rec o (Ta (ssh ++ e) be bm) (Ta (ssh ++ e) se (flat_map (fun v : Z => repeat v csz) (firstn (size ssh) sm_) ++ junk)) else rec o (Ta (ssh ++ e) se (flat_map (fun v : Z => repeat v csz) (firstn (size ssh) sm_) ++ junk)) (Ta (ssh ++ e) be bm)) with (call (Ta (ssh ++ e) se (flat_map (fun v : Z => repeat v csz) (firstn (size ssh) sm_) ++ junk)) (Ta (ssh ++ e) be bm)).
  destruct (Z.ltb_spec (Z.of_nat csz) (Z.shiftr 5120 (bits_log be))) as [SM|BG].
  - set (big := copies csz (firstn (size ssh) sm_)). change (flat_map (fun v => repeat v csz) (firstn (size ssh) sm_)) with big. assert (LBG : length big = size ssh * csz) by (unfold big; rewrite copies_len, firstn_length, Nat.min_l by lia; reflexivity).
    assert (FN : firstn (size (ssh ++ e)) (big ++ junk) = big) by (rewrite size_app; fold csz; rewrite <- LBG, firstn_app, Nat.sub_diag, firstn_all; cbn [firstn]; apply app_nil_r).
    assert (WG : wfa (Ta (ssh ++ e) se (big ++ junk))). { cbn [wfa]. rewrite FN, app_length, size_app. fold csz. split; [exact NS|]. split; [lia|]. apply Forall_forall. intros z I. rewrite Forall_forall in RS. apply RS. eapply copies_in. exact I. }
    pose proof (C1 (ssh ++ e) se (big ++ junk) be bm WG WB) as Q. rewrite !tree_Ta, FN in Q. rewrite !tree_Ta. unfold big in Q. rewrite <- copies_map in Q.
    assert (EQ : forall r, perv sm oo (TN ssh (map (leaf se) (firstn (size ssh) sm_))) (TN (ssh ++ e) (map (leaf be) (firstn (size (ssh ++ e)) bm))) r <-> perv sm oo (TN (ssh ++ e) (copies csz (map (leaf se) (firstn (size ssh) sm_)))) (TN (ssh ++ e) (map (leaf be) (firstn (size (ssh ++ e)) bm))) r).
    { intros r. rewrite perv_less. pose proof (perv_less sm oo (ssh ++ e) [] (copies csz (map (leaf se) (firstn (size ssh) sm_))) (map (leaf be) (firstn (size (ssh ++ e)) bm)) r) as Q'. rewrite app_nil_r in Q'. rewrite Q'. change (size []) with 1. rewrite copies_1. reflexivity. }
    fold big. destruct (call _ _) as [r| |]; cbn [PervProof3.okres compares] in *; [apply EQ; exact Q|intros r P; apply EQ in P; exact (Q r P)|exact Q].
  - set (cell := fun i => firstn csz (skipn (i * csz) bm)). set (step := fun i => do z <- rd sm_ i; do v <- conv1 se EB z; call (At v) (Ta e be (skipn (i * csz) bm))).
    change (mapM _ (seq 0 (size ssh))) with (mapM step (seq 0 (size ssh))).
    assert (LC : forall i, In i (seq 0 (size ssh)) -> (i + 1) * csz <= size ssh * csz) by (intros i I; apply in_seq in I; apply Nat.mul_le_mono_r; lia).
    assert (ST : forall i, In i (seq 0 (size ssh)) -> match step i with Ok r => exists rs, r = RArr e rs /\ Forall2 (fun z => perv sm oo (leaf se (nth i sm_ 0%Z)) (leaf be z)) (cell i) rs | Err => forall rs, ~ Forall2 (fun z => perv sm oo (leaf se (nth i sm_ 0%Z)) (leaf be z)) (cell i) rs | UB => False end).
    { intros i I. pose proof (LC i I) as B. apply in_seq in I. unfold step. rewrite rd_nth by lia. cbn [bind]. destruct (get_ok se (nth i sm_ 0%Z) (raw_nth se sm_ (size ssh) i RS ltac:(lia) ltac:(lia))) as (v & E & D & RV). rewrite E. cbn [bind].
      assert (WC : wfa (Ta e be (skipn (i * csz) bm))). { cbn [wfa]. fold csz. split; [exact NB|]. rewrite skipn_length. split; [lia|]. apply Forall_forall. intros z Z1. rewrite Forall_forall in RB. apply RB. apply (in_cell csz (i * csz)); [lia|exact Z1]. }
      pose proof (C2 v e be (skipn (i * csz) bm) RV WC) as Q. rewrite tree_Ta, D in Q. fold csz in Q. fold (cell i) in Q. fold (leaf se (nth i sm_ 0%Z)) in Q. destruct (call _ _) as [r| |]; cbn [PervProof3.okres compares] in Q; [| |exact Q].
      - inversion Q as [|? ? ? rs F| | |]; subst. exists rs. split; [reflexivity|]. exact (proj1 (Forall2_ml _ _ _ _) F).
      - intros rs F. apply (Q (RArr e rs)). apply p_right. apply Forall2_ml. exact F. }
    assert (EQ : forall r, perv sm oo (tree_of (Ta ssh se sm_)) (tree_of (Ta (ssh ++ e) be bm)) r <-> exists ls, r = RArr (ssh ++ e) (concat ls) /\ Forall2 (fun i rs => Forall2 (fun z => perv sm oo (leaf se (nth i sm_ 0%Z)) (leaf be z)) (cell i) rs) (seq 0 (size ssh)) ls).
    { intros r. rewrite !tree_Ta, perv_less. fold csz. assert (CB : combine (copies csz (map (leaf se) (firstn (size ssh) sm_))) (map (leaf be) (firstn (size (ssh ++ e)) bm)) = flat_map (fun i => map (fun y => (leaf se (nth i sm_ 0%Z), y)) (map (leaf be) (cell i))) (seq 0 (size ssh))).
      { rewrite <- (combine_cells csz) by (intros i I; specialize (LC i I); unfold cell; rewrite map_length, firstn_length, skipn_length; lia). f_equal; [f_equal; rewrite firstn_nth, map_map by lia; reflexivity|]. rewrite size_app. fold csz. change bm with (skipn (0 * csz) bm) at 1. rewrite cells_flat by lia. rewrite !flat_map_concat_map, concat_map, map_map. reflexivity. }
      unfold pw. rewrite CB. assert (G : forall l rs, Forall2 (fun p => perv sm oo (fst p) (snd p)) (flat_map (fun i => map (fun y => (leaf se (nth i sm_ 0%Z), y)) (map (leaf be) (cell i))) l) rs <-> exists ls, rs = concat ls /\ Forall2 (fun i rs => Forall2 (fun z => perv sm oo (leaf se (nth i sm_ 0%Z)) (leaf be z)) (cell i) rs) l ls).
      { induction l as [|i l IH]; intros rs; cbn [flat_map].
        - split; [intros F; inversion F; exists []; split; [reflexivity|constructor]|]. intros (ls & -> & F). inversion F. constructor.
        - split.
          + intros F. apply Forall2_app_inv_l in F. destruct F as (r1 & r2 & F1 & F2 & ->). apply IH in F2. destruct F2 as (ls & -> & F2). exists (r1 :: ls). split; [reflexivity|]. constructor; [|exact F2]. rewrite map_map in F1. exact (proj1 (Forall2_ml _ _ _ _) F1).
          + intros (ls & -> & F). inversion F as [|? r1 ? ls' F1 F2]; subst. cbn [concat]. apply Forall2_app; [rewrite map_map; apply Forall2_ml; exact F1|]. apply IH. eauto. }
      split.
      - intros (rs & -> & F). apply G in F. destruct F as (ls & -> & F). eauto.
      - intros (ls & -> & F). eexists. split; [reflexivity|]. apply G. eauto. }
    pose proof (mapM_cases step (seq 0 (size ssh))) as MC. destruct (mapM step _) as [rs| |]; cbn [bind].
    + destruct (parts_ok (fun i r => In i (seq 0 (size ssh)) /\ step i = Ok r) (fun i rs => Forall2 (fun z => perv sm oo (leaf se (nth i sm_ 0%Z)) (leaf be z)) (cell i) rs) e) with (l := seq 0 (size ssh)) (rs := rs) as (ls & E & F).
      * intros i r [I E]. specialize (ST i I). rewrite E in ST. exact ST.
      * assert (G : forall l, incl l (seq 0 (size ssh)) -> forall rs, Forall2 (fun a b => step a = Ok b) l rs -> Forall2 (fun i r => In i (seq 0 (size ssh)) /\ step i = Ok r) l rs).
        { intros l IL rs' F. induction F; constructor; [split; [apply IL; left; reflexivity|assumption]|apply IHF; intros q Q; apply IL; right; exact Q]. }
        apply G; [apply incl_refl|exact MC].
      * rewrite E. cbn [bind PervProof3.okres compares]. apply EQ. eauto.
    + destruct MC as (i & I & E). specialize (ST i I). rewrite E in ST. cbn [PervProof3.okres compares]. intros r P. apply EQ in P. destruct P as (ls & _ & F). clear - F I ST. induction F as [|j c lj lr P F IH]; [destruct I|]. destruct I as [->|I]; [exact (ST _ P)|exact (IH I)].
    + destruct MC as (i & I & E). specialize (ST i I). rewrite E in ST. exact ST.
Qed.
End L.
End W.
