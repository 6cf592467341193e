(** Mapping over elements; arrays of one type *)
From Verif Require Import Base TagModel TagSpec TagProof NumSpec NumProof ArrSpec SqueezeModel SqueezeProof SqueezeProof2 HashModel CompareModel SearchFlat PervModel PervSpec PervProof PervProof2 PervProof3.
From Coq Require Import List Lia.
Open Scope nat_scope.
Definition is_arr (a : av) : Prop := match a with At _ => False | _ => True end.
Lemma all_wfa : forall d, (fix all l := match l with [] => True | a :: l => wfa a /\ all l end) d <-> Forall wfa d.
Proof. induction d as [|a d IH]; split; intros H; [constructor|exact Logic.I|constructor; [exact (proj1 H)|apply IH; exact (proj2 H)]|inversion H; subst; split; [assumption|apply IH; assumption]]. Qed.
Lemma depth_in a sh d : In a d -> depth a < depth (Bx sh d).
Proof. cbn [depth]. induction d as [|b d IH]; intros I; [destruct I|]. cbn [fold_right]. destruct I as [->|I]; [lia|]. specialize (IH I). lia. Qed.
Lemma elems_ok a : wfa a -> exists l, elems a = Ok l /\ length l = size (shape a) /\ Forall wfa l /\ unit_tree (tree_of a) = TN (shape a) (map tree_of l) /\ (is_arr a -> forall b, In b l -> depth b < depth a) /\ (is_arr a \/ l = [a]).
Proof.
  destruct a as [w|sh e mem|sh d]; cbn [wfa elems shape tree_of unit_tree is_arr].
  - intros W. exists [At w]. repeat split; auto. intros [].
  - intros (NB & L & R). assert (RN : forall i, i < size sh -> raw_ok e (nth i mem 0%Z)).
    { intros i I. rewrite firstn_nth in R by lia. rewrite Forall_forall in R. apply R. apply in_map_iff. exists i. split; [reflexivity|]. apply in_seq. lia. }
    exists (map (fun i => At (cv e (nth i mem 0%Z))) (seq 0 (size sh))). split; [|split; [|split; [|split; [|split; [|left; exact Logic.I]]]]].
    + apply mapM_ok. intros i I. apply in_seq in I. rewrite rd_nth by lia. cbn [bind]. destruct (cv_ok e _ (RN i ltac:(lia))) as (-> & _). reflexivity.
    + rewrite map_length, seq_length. reflexivity.
    + apply Forall_forall. intros a I. apply in_map_iff in I. destruct I as (i & <- & I). apply in_seq in I. apply cv_ok. apply RN. lia.
    + f_equal. rewrite firstn_nth, !map_map by lia. apply map_ext_in. intros i I. apply in_seq in I. cbn [tree_of]. destruct (cv_ok e _ (RN i ltac:(lia))) as (_ & -> & _). reflexivity.
    + intros _ b I. apply in_map_iff in I. destruct I as (i & <- & _). cbn [depth]. lia.
  - intros (L & W). exists d. apply all_wfa in W. repeat split; auto. intros _ b. apply depth_in.
Qed.
Lemma sized_ok a : wfa a -> sized (tree_of a).
Proof.
  destruct a as [w|sh e mem|sh d]; cbn [wfa tree_of sized]; auto.
  - intros (_ & L & _). rewrite map_length, firstn_length. lia.
  - intros (L & _). rewrite map_length. exact L.
Qed.
Lemma part_ok : forall a b, length a <= length b -> (eqShPart a b (length a) = true <-> exists e, b = a ++ e).
Proof.
  unfold eqShPart. induction a as [|n a IH]; intros b L; [cbn; split; [exists b; reflexivity|reflexivity]|]. destruct b as [|m b]; cbn [length] in L; [lia|]. cbn [length firstn combine forallb fst snd]. rewrite andb_true_iff, Nat.eqb_eq, IH by lia. split.
  - intros [-> [e ->]]. exists e. reflexivity.
  - intros [e E]. cbn [app] in E. inversion E. split; [reflexivity|]. exists e. reflexivity.
Qed.
Lemma part_sym : forall a b n, eqShPart a b n = eqShPart b a n.
Proof. unfold eqShPart. induction a as [|x a IH]; intros [|y b] [|n]; try reflexivity; cbn [firstn combine forallb fst snd]; [destruct (firstn n b); reflexivity || reflexivity..|]. rewrite IH, Nat.eqb_sym. reflexivity. Qed.
Lemma rd_av (l : list av) i : i < length l -> rd l i = Ok (nth i l (At 0)).
Proof. intros H. unfold rd. rewrite (nth_error_nth' l (At 0) H). reflexivity. Qed.
Section W.
Variable s : Z -> Z -> bool.
Hypothesis SY : forall p q, s p q = s q p.
Notation okres := (okres s).
(** one pass over all pairs *)
Lemma pass_ok o (f : av -> av -> res rv) k wl xl : 0 < k -> length xl = length wl * k -> (forall a b, In a wl -> In b xl -> okres o (tree_of a) (tree_of b) (f a b)) ->
  match mapM (fun i => do a <- rd wl (i / k); do b <- rd xl i; f a b) (seq 0 (length xl)) with
  | Ok r => pw s o (copies k (map tree_of wl)) (map tree_of xl) r
  | Err => forall r, ~ pw s o (copies k (map tree_of wl)) (map tree_of xl) r
  | UB => False
  end.
Proof.
  intros K L H. assert (ST : forall i, In i (seq 0 (length xl)) -> okres o (nth (i / k) (map tree_of wl) (tree_of (At 0))) (nth i (map tree_of xl) (tree_of (At 0))) (do a <- rd wl (i / k); do b <- rd xl i; f a b)).
  { intros i I. apply in_seq in I. assert (IK : i / k < length wl) by (apply Nat.div_lt_upper_bound; lia). rewrite !rd_av by lia. cbn [bind]. rewrite !map_nth. apply H; apply nth_In; lia. }
  unfold pw. rewrite (combine_idx s k _ _ (tree_of (At 0))) by (rewrite ?map_length; auto). rewrite map_length.
  pose proof (mapM_cases (fun i => do a <- rd wl (i / k); do b <- rd xl i; f a b) (seq 0 (length xl))) as MC. destruct (mapM _ _) as [r| |].
  - apply Forall2_map_l'. cbn [fst snd]. revert MC ST. generalize (seq 0 (length xl)). intros l MC. induction MC as [|i c li lr E F IH]; intros ST; constructor; [specialize (ST i (or_introl eq_refl)); rewrite E in ST; exact ST|apply IH; intros; apply ST; right; assumption].
  - destruct MC as (i & I & E). specialize (ST i I). rewrite E in ST. intros r F. apply Forall2_map_l' in F. cbn [fst snd] in F. clear - F I ST. induction F as [|j c lj lr P F IH]; [destruct I|]. destruct I as [->|I]; [exact (ST _ P)|exact (IH I)].
  - destruct MC as (i & I & E). specialize (ST i I). rewrite E in ST. exact ST.
Qed.
Lemma pw_swap o l m r : pw s o l m r <-> Forall2 (fun p => perv s o (snd p) (fst p)) (combine m l) r.
Proof. unfold pw. rewrite (swap_combine l m), Forall2_map_l'. reflexivity. Qed.
Lemma pass_ok' o (f : av -> av -> res rv) k wl xl : 0 < k -> length wl = length xl * k -> (forall a b, In a wl -> In b xl -> okres o (tree_of a) (tree_of b) (f a b)) ->
  match mapM (fun i => do a <- rd wl i; do b <- rd xl (i / k); f a b) (seq 0 (length wl)) with
  | Ok r => pw s o (map tree_of wl) (copies k (map tree_of xl)) r
  | Err => forall r, ~ pw s o (map tree_of wl) (copies k (map tree_of xl)) r
  | UB => False
  end.
Proof.
  intros K L H. assert (ST : forall i, In i (seq 0 (length wl)) -> okres o (nth i (map tree_of wl) (tree_of (At 0))) (nth (i / k) (map tree_of xl) (tree_of (At 0))) (do a <- rd wl i; do b <- rd xl (i / k); f a b)).
  { intros i I. apply in_seq in I. assert (IK : i / k < length xl) by (apply Nat.div_lt_upper_bound; lia). rewrite !rd_av by lia. cbn [bind]. rewrite !map_nth. apply H; apply nth_In; lia. }
  assert (E0 : forall r, pw s o (map tree_of wl) (copies k (map tree_of xl)) r <-> Forall2 (fun i => perv s o (nth i (map tree_of wl) (tree_of (At 0))) (nth (i / k) (map tree_of xl) (tree_of (At 0)))) (seq 0 (length wl)) r).
  { intros r. rewrite pw_swap, (combine_idx s k _ _ (tree_of (At 0))) by (rewrite ?map_length; auto). rewrite map_length, Forall2_map_l'. reflexivity. }
  pose proof (mapM_cases (fun i => do a <- rd wl i; do b <- rd xl (i / k); f a b) (seq 0 (length wl))) as MC. destruct (mapM _ _) as [r| |].
  - apply E0. clear E0. revert MC ST. generalize (seq 0 (length wl)). intros l MC. induction MC as [|i c li lr E F IH]; intros ST; constructor; [specialize (ST i (or_introl eq_refl)); rewrite E in ST; exact ST|apply IH; intros; apply ST; right; assumption].
  - destruct MC as (i & I & E). specialize (ST i I). rewrite E in ST. intros r F. apply E0 in F. clear - F I ST. induction F as [|j c lj lr P F IH]; [destruct I|]. destruct I as [->|I]; [exact (ST _ P)|exact (IH I)].
  - destruct MC as (i & I & E). specialize (ST i I). rewrite E in ST. exact ST.
Qed.
Lemma each2_ok o f w x : wfa w -> wfa x -> is_arr w \/ is_arr x -> (forall wl xl a b, elems w = Ok wl -> elems x = Ok xl -> In a wl -> In b xl -> okres o (tree_of a) (tree_of b) (f a b)) -> okres o (tree_of w) (tree_of x) (each2 f w x).
Proof.
  intros W X AR H. destruct (elems_ok w W) as (wl & EW & LW & _ & TW & _), (elems_ok x X) as (xl & EX & LX & _ & TX & _). specialize (H wl xl). assert (H' : forall a b, In a wl -> In b xl -> okres o (tree_of a) (tree_of b) (f a b)) by (intros; apply H; auto). clear H.
  assert (PU : forall r, perv s o (tree_of w) (tree_of x) r <-> perv s o (TN (shape w) (map tree_of wl)) (TN (shape x) (map tree_of xl)) r).
  { intros r. rewrite <- TW, <- TX. apply perv_unit; [apply sized_ok; exact W|apply sized_ok; exact X|]. intros a b E E'. destruct w, x; cbn [tree_of is_arr] in *; try discriminate. tauto. }
  assert (OK : okres o (TN (shape w) (map tree_of wl)) (TN (shape x) (map tree_of xl)) (each2 f w x)).
  2:{ unfold okres, compares in *. destruct (each2 f w x) as [r| |]; [apply PU; exact OK|intros r P; apply PU in P; exact (OK r P)|exact OK]. }
  unfold each2. rewrite EW, EX. cbn [bind]. clear PU TW TX EW EX. revert LW LX. generalize (shape w) (shape x). intros wsh xsh LW LX.
  destruct (Nat.eqb_spec (Nat.max (length wsh) (length xsh)) 0) as [Z0|NZ].
  - destruct wsh; [|cbn [length] in Z0; lia]. destruct xsh; [|cbn [length] in Z0; lia]. destruct wl as [|a [|? ?]]; try discriminate. destruct xl as [|b [|? ?]]; try discriminate. unfold rd. cbn [nth_error bind].
    specialize (H' a b (or_introl eq_refl) (or_introl eq_refl)). unfold PervProof3.okres, compares in *. assert (Q : forall r, perv s o (TN [] (map tree_of [a])) (TN [] (map tree_of [b])) r <-> exists c, r = RArr [] [c] /\ perv s o (tree_of a) (tree_of b) c).
    { intros r. rewrite (perv_less s o [] [] _ _ r). change (size []) with 1. rewrite copies_1. unfold pw. cbn [map combine app]. split.
      - intros (rs & -> & F). inversion F as [|? c ? ? P F']; subst. inversion F'; subst. exists c. auto.
      - intros (c & -> & P). exists [c]. split; [reflexivity|]. repeat constructor. exact P. }
    destruct (f a b) as [r| |]; cbn [bind]; [apply Q; eauto| |exact H']. intros r P. apply Q in P. destruct P as (c & _ & P). exact (H' c P).
  - destruct (Nat.ltb_spec (length xsh) (length wsh)) as [G|G].
    + rewrite Nat.min_r by lia. destruct (eqShPart wsh xsh (length xsh)) eqn:EP; cbn [negb].
      * rewrite part_sym in EP. apply part_ok in EP; [|lia]. destruct EP as [e ->]. rewrite size_app in *. assert (PM := perv_more s o xsh e (map tree_of wl) (map tree_of xl)). destruct (Nat.eqb_spec (size xsh * size e) 0) as [E0|E0].
        -- apply PM. exists []. split; [reflexivity|]. unfold pw. destruct wl; [constructor|cbn [length] in LW; lia].
        -- replace (size xsh * size e / length xl) with (size e) by (rewrite LX, (Nat.mul_comm (size xsh)), Nat.div_mul by lia; reflexivity).
           pose proof (pass_ok' o f (size e) wl xl ltac:(lia) ltac:(lia) H') as P. rewrite LW in P. destruct (mapM _ _) as [r| |]; cbn [bind PervProof3.okres compares]; [apply PM; eauto| |exact P]. intros r Q. apply PM in Q. destruct Q as (rs & _ & Q). exact (P rs Q).
      * cbn [PervProof3.okres compares]. intros r Q. apply perv_shapes in Q. destruct Q as [[e E]|[e E]].
        -- rewrite E, app_length in G. lia.
        -- rewrite part_sym in EP. assert (T : eqShPart xsh wsh (length xsh) = true) by (apply part_ok; [lia|eauto]). congruence.
    + rewrite Nat.min_l by lia. destruct (eqShPart wsh xsh (length wsh)) eqn:EP; cbn [negb].
      * apply part_ok in EP; [|lia]. destruct EP as [e ->]. rewrite size_app in *. assert (PM := perv_less s o wsh e (map tree_of wl) (map tree_of xl)). destruct (Nat.eqb_spec (size wsh * size e) 0) as [E0|E0].
        -- apply PM. exists []. split; [reflexivity|]. unfold pw. destruct xl; [|cbn [length] in LX; lia]. cbn [map]. destruct (copies _ _); constructor.
        -- replace (size wsh * size e / length wl) with (size e) by (rewrite LW, (Nat.mul_comm (size wsh)), Nat.div_mul by lia; reflexivity).
           pose proof (pass_ok o f (size e) wl xl ltac:(lia) ltac:(lia) H') as P. rewrite LX in P. destruct (mapM _ _) as [r| |]; cbn [bind PervProof3.okres compares]; [apply PM; eauto| |exact P]. intros r Q. apply PM in Q. destruct Q as (rs & _ & Q). exact (P rs Q).
      * cbn [PervProof3.okres compares]. intros r Q. apply perv_shapes in Q. destruct Q as [[e E]|[e E]].
        -- assert (T : eqShPart wsh xsh (length wsh) = true) by (apply part_ok; [lia|eauto]). congruence.
        -- assert (T : eqShPart wsh xsh (length wsh) = true); [|congruence]. rewrite E, app_length in G. assert (e = []) by (destruct e; [reflexivity|cbn [length] in G; lia]). subst e. rewrite app_nil_r in E. subst xsh. apply part_ok; [lia|]. exists []. rewrite app_nil_r. reflexivity.
Qed.
End W.
