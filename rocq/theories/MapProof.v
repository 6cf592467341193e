(** Proofs for Each and Table. *)
From Verif Require Import Base SqueezeModel TransSpec JoinProof JoinProof4 JoinProof2 MapModel MapSpec.
Open Scope nat_scope.
Lemma calls_ext {A V S} (f g : A -> S -> res (V * S)) l : (forall a s, In a l -> f a s = g a s) -> forall s, calls f l s = calls g l s.
Proof.
  induction l as [|a l IH]; intros H s; [reflexivity|]. cbn [calls]. rewrite H by (left; reflexivity). destruct (g a s) as [[v s1]| |]; try reflexivity.
  rewrite IH; [reflexivity|]. intros; apply H; right; assumption.
Qed.
Lemma calls_app {A V S} (f : A -> S -> res (V * S)) l1 l2 : forall s,
  calls f (l1 ++ l2) s = do (a, s) <- calls f l1 s; do (b, s) <- calls f l2 s; Ok (a ++ b, s).
Proof.
  induction l1 as [|a l1 IH]; intros s; cbn [app calls bind]; [destruct (calls f l2 s) as [[b t]| |]; reflexivity|].
  destruct (f a s) as [[v s1]| |]; [|reflexivity..]. rewrite IH. destruct (calls f l1 s1) as [[a' s2]| |]; [|reflexivity..]. cbn [bind].
  destruct (calls f l2 s2) as [[b t]| |]; reflexivity.
Qed.
Section P.
Context {V S : Type}.
Lemma collect_calls {A} (f : A -> S -> res (V * S)) (l : list A) : forall i g s,
  (forall j a, nth_error l j = Some a -> forall s, g (i + j) s = f a s) -> collect (length l) i g s = calls f l s.
Proof.
  induction l as [|a l IH]; intros i g s H; [reflexivity|]. cbn [length collect calls].
  pose proof (H 0 a eq_refl s) as H0. rewrite Nat.add_0_r in H0. rewrite H0. destruct (f a s) as [[v s1]| |]; [|reflexivity..]. cbn [bind].
  rewrite IH; [destruct (calls f l s1) as [[b t]| |]; reflexivity|]. intros j b Hj s2. replace (Datatypes.S i + j) with (i + Datatypes.S j) by lia. apply H. exact Hj.
Qed.
Lemma rd_mid (pre : list V) v post : rd (pre ++ v :: post) (length pre) = Ok v.
Proof. unfold rd. rewrite nth_error_app2, Nat.sub_diag by lia. reflexivity. Qed.
Lemma wr_mid (pre : list V) v post u : wr (pre ++ v :: post) (length pre) u = Ok (pre ++ u :: post).
Proof.
  unfold wr. destruct (Nat.ltb_spec (length pre) (length (pre ++ v :: post))) as [_|H]; [|rewrite app_length in H; cbn [length] in H; lia].
  f_equal. induction pre as [|p pre IH]; [reflexivity|]. cbn [app length upd]. f_equal. exact IH.
Qed.
Lemma inplace_calls {A} zero (f : A -> S -> res (V * S)) : forall (l : list A) (rest pre : list V) g s, length rest = length l ->
  (forall j a v, nth_error l j = Some a -> nth_error rest j = Some v -> forall s, g (length pre + j) v s = f a s) ->
  inplace zero (length l) (length pre) g (pre ++ rest) s = do (rs, s) <- calls f l s; Ok (pre ++ rs, s).
Proof.
  induction l as [|a l IH]; intros rest pre g s HL H; destruct rest as [|v rest]; cbn [length] in HL; try lia; [reflexivity|]. cbn [length inplace].
  rewrite rd_mid. cbn [bind]. rewrite wr_mid. cbn [bind].
  pose proof (H 0 a v eq_refl eq_refl s) as H0. rewrite Nat.add_0_r in H0. rewrite H0. cbn [calls]. destruct (f a s) as [[r s1]| |]; [|reflexivity..]. cbn [bind].
  rewrite wr_mid. cbn [bind]. replace (pre ++ r :: rest) with ((pre ++ [r]) ++ rest) by (rewrite <- app_assoc; reflexivity).
  replace (Datatypes.S (length pre)) with (length (pre ++ [r])) by (rewrite app_length; cbn [length]; lia).
  rewrite IH; [|lia|].
  - destruct (calls f l s1) as [[b t]| |]; [|reflexivity..]. cbn [bind]. rewrite <- app_assoc. reflexivity.
  - intros j b u Hj Hu s2. rewrite app_length. cbn [length]. replace (length pre + 1 + j) with (length pre + Datatypes.S j) by lia. apply H; assumption.
Qed.
Lemma inplace_all {A} zero (f : A -> S -> res (V * S)) (l : list A) (d : list V) g n s : length d = length l -> n = length l ->
  (forall j a v, nth_error l j = Some a -> nth_error d j = Some v -> forall s, g j v s = f a s) -> inplace zero n 0 g d s = calls f l s.
Proof.
  intros HL -> H. change 0 with (length (@nil V)). change d with ([] ++ d). rewrite (inplace_calls zero f l d [] g s HL H).
  destruct (calls f l s) as [[b t]| |]; reflexivity.
Qed.
Lemma nested_calls {A} (f : A -> S -> res (V * S)) ext : forall min (l : list A) i k g s, length l = min * ext ->
  (forall p q a, q < ext -> nth_error l (p * ext + q) = Some a -> forall s, g (i + p) (k + (p * ext + q)) s = f a s) -> nested min ext i k g s = calls f l s.
Proof.
  induction min as [|min IH]; intros l i k g s HL H.
  - destruct l; [reflexivity|discriminate].
  - rewrite <- (firstn_skipn ext l). rewrite calls_app. cbn [nested].
    assert (L1 : length (firstn ext l) = ext) by (rewrite firstn_length, HL; lia).
    rewrite <- L1 at 1. rewrite (collect_calls f (firstn ext l)).
    + destruct (calls f (firstn ext l) s) as [[a s1]| |]; [|reflexivity..]. cbn [bind].
      rewrite (IH (skipn ext l)); [reflexivity|rewrite skipn_length, HL; lia|].
      intros p q a0 Hq Hn s2. replace (Datatypes.S i + p) with (i + Datatypes.S p) by lia. replace (k + ext + (p * ext + q)) with (k + (Datatypes.S p * ext + q)) by lia.
      apply H; [exact Hq|]. rewrite nth_skipn in Hn. rewrite <- Hn. f_equal. lia.
    + intros j a Hj s1. assert (j < ext) by (rewrite <- L1; apply nth_error_Some; rewrite Hj; discriminate).
      specialize (H 0 j a ltac:(assumption)). cbn [Nat.mul] in H. rewrite Nat.add_0_l, !Nat.add_0_r in H. apply H.
      rewrite <- (firstn_skipn ext l), nth_error_app1 by lia. exact Hj.
Qed.
Lemma spread_nth {A} (e : nat) (l : list A) : forall n, n < length l * e -> nth_error (flat_map (fun v => repeat v e) l) n = nth_error l (n / e).
Proof.
  induction l as [|a l IH]; intros n H; cbn [length] in H; [lia|]. assert (E : e <> 0) by (intros ->; lia). cbn [flat_map].
  destruct (Nat.lt_ge_cases n e) as [L|G].
  - rewrite nth_error_app1 by (rewrite repeat_length; exact L). rewrite Nat.div_small by exact L. cbn [nth_error].
    clear -L. revert n L. induction e as [|e IH]; intros [|n] L; cbn [repeat nth_error]; try lia; [reflexivity|apply IH; lia].
  - rewrite nth_error_app2 by (rewrite repeat_length; exact G). rewrite repeat_length, IH by (cbn in H; lia).
    replace n with (n - e + 1 * e) at 2 by lia. rewrite Nat.div_add by exact E. rewrite Nat.add_1_r. reflexivity.
Qed.
Lemma spread_len {A} (e : nat) (l : list A) : length (flat_map (fun v => repeat v e) l) = length l * e.
Proof. induction l as [|a l IH]; [reflexivity|]. cbn [flat_map length]. rewrite app_length, repeat_length, IH. cbn [Nat.mul]. reflexivity. Qed.
Lemma spread_1 {A} (l : list A) : flat_map (fun v => repeat v 1) l = l.
Proof. induction l; [reflexivity|]. cbn [flat_map repeat app]. f_equal. exact IHl. Qed.
Lemma nth_combine {A B} (l : list A) (m : list B) : forall n a b, nth_error l n = Some a -> nth_error m n = Some b -> nth_error (combine l m) n = Some (a, b).
Proof. revert m. induction l as [|x l IH]; intros [|y m] [|n] a b; cbn [nth_error combine]; try congruence. apply IH. Qed.
Lemma combine_nth_inv {A B} (l : list A) (m : list B) : forall n a b, nth_error (combine l m) n = Some (a, b) -> nth_error l n = Some a /\ nth_error m n = Some b.
Proof. revert m. induction l as [|x l IH]; intros [|y m] [|n] a b; cbn [nth_error combine]; try discriminate; [intros [= -> ->]; auto|apply IH]. Qed.
Lemma inb_app (s t I : list nat) : inb (s ++ t) I -> inb s (firstn (length s) I) /\ inb t (skipn (length s) I).
Proof.
  revert I. induction s as [|a s IH]; intros I H; cbn [app length firstn skipn] in *; [split; [constructor|exact H]|].
  inversion H; subst. cbn [firstn skipn]. destruct (IH _ H4) as [P Q]. split; [constructor; assumption|exact Q].
Qed.
Lemma inb_len (s I : list nat) : inb s I -> length I = length s.
Proof. intros H. induction H; cbn [length]; congruence. Qed.
Lemma elt_some {A} (s : list nat) (d : list A) I : array s d -> inb s I -> exists a, elt s d I = Some a.
Proof.
  intros HA HI. unfold elt. destruct (nth_error d (ravel s I)) as [a|] eqn:E; [eauto|]. apply nth_error_None in E. pose proof (ravel_lt _ _ HI). unfold array in HA. lia.
Qed.
(** the value at the leading axes *)
Lemma spread_elt {A} (s t : list nat) (d : list A) I : array s d -> inb (s ++ t) I ->
  elt (s ++ t) (flat_map (fun v => repeat v (size t)) d) I = elt s d (firstn (length s) I).
Proof.
  intros HA HI. pose proof (ravel_lt _ _ HI) as L. rewrite size_app in L. unfold elt. unfold array in HA. rewrite spread_nth by (rewrite HA; exact L).
  destruct (inb_app _ _ _ HI) as [P Q]. f_equal. rewrite <- (firstn_skipn (length s) I) at 1. rewrite ravel_app' by (apply inb_len; exact P).
  pose proof (ravel_lt _ _ Q). rewrite Nat.div_add_l by lia. rewrite Nat.div_small by assumption. lia.
Qed.
End P.
