(** Proofs about CellsModel: what the primitives do to one cell. *)
From Verif Require Import Base SqueezeModel TransSpec JoinModel JoinSpec JoinProof JoinProof2 JoinProof4 MapModel MapSpec MapProof MapProof2 MapProof4 CellsModel CellsSpec CellsProof CellsProof2 CellsProof3 CellsProof4.
From Coq Require Import Lia ZArith List.
Import ListNotations.
Open Scope nat_scope.
Section P.
Context {A : Type}.
Variables (n : nat) (t : list nat) (d : list A).
Hypothesis V : array (n :: t) d.
Lemma len_nt : length d = n * size t. Proof. exact V. Qed.
Lemma elt_at i J : elt (n :: t) d (i :: J) = nth_error d (i * size t + ravel t J). Proof. reflexivity. Qed.
Lemma pr_first : n <> 0 -> exists r, p_first (Ar (n :: t) d) = Ok (Ar t r) /\ array t r /\ forall J, inb t J -> elt t r J = elt (n :: t) d (0 :: J).
Proof.
  intros N. destruct n as [|n']; [congruence|]. eexists. split; [reflexivity|]. rewrite (div_cell _ (Datatypes.S n') (size t)) by (exact V || lia). split.
  - unfold array. rewrite firstn_length, V, size_cons. lia.
  - intros J HJ. pose proof (ravel_lt _ _ HJ). change (elt (Datatypes.S n' :: t) d (0 :: J)) with (nth_error d (0 * size t + ravel t J)). rewrite <- (nth_slice d (size t) 0) by assumption. reflexivity.
Qed.
Lemma pr_reverse : exists r, p_reverse (Ar (n :: t) d) = Ok (Ar (n :: t) r) /\ array (n :: t) r /\ forall i J, i < n -> inb t J -> elt (n :: t) r (i :: J) = elt (n :: t) d (n - 1 - i :: J).
Proof.
  eexists. split; [reflexivity|]. destruct (Nat.eq_dec n 0) as [N|N].
  { rewrite N in *. split; [reflexivity|]. intros i J H. lia. }
  rewrite (div_cell _ n (size t)) by (exact V || exact N). rewrite blocks_slices, <- map_rev.
  assert (F : Forall (fun l : list A => length l = size t) (map (fun i => firstn (size t) (skipn (i * size t) d)) (rev (seq 0 n)))).
  { apply Forall_map, Forall_forall. intros i H. apply in_rev, in_seq in H. apply (slice_len d n); [exact V|lia]. }
  split.
  - unfold array. rewrite size_cons. clear - F. assert (LS : length (rev (seq 0 n)) = n) by (rewrite rev_length; apply seq_length). rewrite <- LS at 2. clear LS. revert F. generalize (rev (seq 0 n)) as l. induction l as [|a l IH]; intros F; [reflexivity|]. cbn [map] in F |- *. inversion F; subst.
    cbn [concat length]. rewrite app_length, IH by assumption. lia.
  - intros i J Hi HJ. pose proof (ravel_lt _ _ HJ). unfold elt. cbn [ravel]. rewrite (nth_blocks (size t) _ F i (ravel t J) (firstn (size t) (skipn ((n - 1 - i) * size t) d))); [apply nth_slice; assumption| |assumption].
    rewrite nth_error_map. replace (nth_error (rev (seq 0 n)) i) with (Some (n - 1 - i)); [reflexivity|]. symmetry.
    rewrite (nth_error_nth' _ 0) by (rewrite rev_length, seq_length; exact Hi). rewrite rev_nth, seq_length, seq_nth by (rewrite ?seq_length; lia). f_equal. lia.
Qed.
Lemma pr_shift fill z after : d <> [] -> fill = Some z -> exists r, p_shift fill after (Ar (n :: t) d) = Ok (Ar (n :: t) r) /\ array (n :: t) r /\
  forall i J, i < n -> inb t J -> elt (n :: t) r (i :: J) =
    if after then (if i =? n - 1 then Some z else elt (n :: t) d (i + 1 :: J)) else (if i =? 0 then Some z else elt (n :: t) d (i - 1 :: J)).
Proof.
  intros D ->. pose proof V as V'. unfold array in V'. rewrite size_cons in V'. assert (L : length d <> 0) by (destruct d; [congruence|discriminate]). assert (N : n <> 0) by (intros N; rewrite N in V'; lia).
  unfold p_shift. rewrite (proj2 (Nat.eqb_neq _ _)) by exact L. rewrite (div_cell _ n (size t)) by assumption. eexists. split; [reflexivity|]. split.
  - unfold array. rewrite size_cons. destruct after; rewrite app_length, repeat_length, ?skipn_length, ?firstn_length, V'; nia.
  - intros i J Hi HJ. pose proof (ravel_lt _ _ HJ) as HR. unfold elt. cbn [ravel]. destruct after.
    + destruct (Nat.eqb_spec i (n - 1)) as [E|E].
      * rewrite nth_error_app2 by (rewrite skipn_length, V'; nia). rewrite skipn_length, V'. apply nth_error_repeat. nia.
      * rewrite nth_error_app1 by (rewrite skipn_length, V'; nia). rewrite nth_skipn. f_equal. lia.
    + destruct (Nat.eqb_spec i 0) as [E|E].
      * rewrite nth_error_app1 by (rewrite repeat_length; nia). apply nth_error_repeat. nia.
      * rewrite nth_error_app2 by (rewrite repeat_length; nia). rewrite repeat_length. transitivity (nth_error d (i * size t + ravel t J - size t)); [|f_equal; nia].
        assert (B : i * size t + ravel t J - size t < length d - size t) by (rewrite V'; nia). revert B. generalize (i * size t + ravel t J - size t) as p, (length d - size t) as q. clear.
        intros p q. revert d p. induction q as [|q IH]; intros l p H; [lia|]. destruct l as [|a l]; [destruct p; reflexivity|]. destruct p as [|p]; [reflexivity|]. cbn [firstn nth_error]. apply IH. lia.
Qed.
Lemma pr_select amax idx (w : arg A) r : exists_val amax w -> p_select amax idx w (Ar (n :: t) d) = Ok r ->
  exists rd, r = Ar (fst (arr_of w) ++ t) rd /\ forall I J, inb (fst (arr_of w)) I -> inb t J ->
    exists v i, elt (fst (arr_of w)) (snd (arr_of w)) I = Some v /\ index idx n v = Ok i /\ i < n /\ elt (fst (arr_of w) ++ t) rd (I ++ J) = elt (n :: t) d (i :: J).
Proof.
  intros EW E. rewrite (select_val amax idx w n t d EW V) in E. destruct (_ || _); [discriminate|]. destruct (mapr _ _) as [inds| |] eqn:M; try discriminate. cbn [bind] in E. injection E as <-. eexists. split; [reflexivity|].
  intros I J HI HJ. apply mapr_inv in M. destruct (elt_some _ _ _ (proj1 EW) HI) as (v & Ev). unfold elt in *. pose proof (ravel_lt _ _ HJ) as HR. rewrite ravel_app' by (apply inb_len; exact HI). cbn [ravel].
  assert (Q : forall p (l : list A) inds, Forall2 (fun a b => index idx n a = Ok b) l inds -> nth_error l p = Some v -> exists i, nth_error inds p = Some i /\ index idx n v = Ok i).
  { clear. intros p l inds F. revert p. induction F as [|a b l inds H F IH]; intros p E; [destruct p; discriminate|]. destruct p as [|p]; cbn [nth_error] in *; [injection E as <-; exists b; auto|apply IH; exact E]. }
  destruct (Q _ _ _ M Ev) as (i & Ei & Xi). exists v, i. split; [exact Ev|]. split; [exact Xi|].
  assert (FI : Forall (fun j => j < n) inds). { clear - M. induction M as [|a b l m H _ IH]; constructor; [|exact IH]. destruct (index_cases idx n a) as [(i & E & L)|E]; rewrite H in E; [injection E as ->; exact L|discriminate]. }
  assert (IN : i < n) by (rewrite Forall_forall in FI; apply FI; apply nth_error_In in Ei; exact Ei). split; [exact IN|].
  rewrite (nth_blocks (size t) (map (fun i => firstn (size t) (skipn (i * size t) d)) inds)) with (l := firstn (size t) (skipn (i * size t) d)); [apply nth_slice; exact HR| |rewrite nth_error_map, Ei; reflexivity|exact HR].
  apply Forall_map. rewrite Forall_forall in *. intros q Hq. apply (slice_len d n); [exact V|apply FI; exact Hq].
Qed.
End P.
