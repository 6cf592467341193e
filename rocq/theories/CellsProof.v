(** Proofs about CellsModel: slices, the loop over the cells, and putting the results together. *)
From Verif Require Import Base SqueezeModel TransSpec JoinModel JoinSpec JoinProof JoinProof2 JoinProof4 MapModel MapSpec MapProof MapProof2 CellsModel CellsSpec.
From Coq Require Import Lia ZArith.
Open Scope nat_scope.
Lemma calls_len {A V S} (f : A -> S -> res (V * S)) l : forall s rs s', calls f l s = Ok (rs, s') -> length rs = length l.
Proof.
  induction l as [|a l IH]; intros s rs s' H; cbn [calls] in H; [injection H as <- _; reflexivity|].
  destruct (f a s) as [[v s1]| |]; try discriminate. destruct (calls f l s1) as [[vs s2]| |] eqn:E; try discriminate. injection H as <- _. cbn [length]. f_equal. eapply IH, E.
Qed.
Lemma calls_forall {A V S} (P : V -> Prop) (f : A -> S -> res (V * S)) l : (forall a s r s', In a l -> f a s = Ok (r, s') -> P r) ->
  forall s rs s', calls f l s = Ok (rs, s') -> Forall P rs.
Proof.
  induction l as [|a l IH]; intros HP s rs s' H; cbn [calls] in H; [injection H as <- _; constructor|].
  destruct (f a s) as [[v s1]| |] eqn:F; try discriminate. destruct (calls f l s1) as [[vs s2]| |] eqn:E; try discriminate. injection H as <- _. constructor.
  - eapply HP; [left; reflexivity|exact F].
  - eapply IH; [|exact E]. intros b s3 r s4 Hb. apply HP. right. exact Hb.
Qed.
Lemma calls_map {A V S} (f : A -> S -> res (V * S)) (g : A -> V) l (s : S) : (forall a, In a l -> f a s = Ok (g a, s)) -> calls f l s = Ok (map g l, s).
Proof.
  induction l as [|a l IH]; intros H; [reflexivity|]. cbn [calls map]. rewrite (H a (or_introl eq_refl)), IH; [reflexivity|]. intros b Hb. apply H. right. exact Hb.
Qed.
Lemma calls_fail {A V S} (f : A -> S -> res (V * S)) l (s : S) : l <> [] -> (forall a, In a l -> f a s = Err) -> calls f l s = Err.
Proof. destruct l as [|a l]; intros N H; [congruence|]. cbn [calls]. rewrite (H a (or_introl eq_refl)). reflexivity. Qed.
Lemma usz_eq sh : (Z.of_nat (size sh) < 2 ^ 32)%Z -> usz sh = size sh.
Proof. intros H. unfold usz. rewrite shProd32_eq. unfold to_u. rewrite Z.mod_small by lia. lia. Qed.
Lemma size_split k sh : size sh = size (firstn k sh) * size (skipn k sh).
Proof. rewrite <- size_app, firstn_skipn. reflexivity. Qed.
Lemma inb_app_i s t I J : inb s I -> inb t J -> inb (s ++ t) (I ++ J).
Proof. intros H K. apply Forall2_app; assumption. Qed.
Lemma nth_slice {A} (d : list A) m i j : j < m -> nth_error (firstn m (skipn (i * m) d)) j = nth_error d (i * m + j).
Proof.
  intros H. rewrite <- (nth_skipn d (i * m) j). remember (skipn (i * m) d) as l. clear - H. revert j H. induction m as [|m IH] in l |- *; intros j H; [lia|].
  destruct l as [|a l]; [destruct j; reflexivity|]. destruct j as [|j]; [reflexivity|]. cbn [firstn nth_error]. apply IH. lia.
Qed.
Lemma slice_len {A} (d : list A) n m i : length d = n * m -> i < n -> length (firstn m (skipn (i * m) d)) = m.
Proof. intros H L. rewrite firstn_length, skipn_length, H. nia. Qed.
Lemma concat_slices {A} (d : list A) n m : length d = n * m -> concat (map (fun i => firstn m (skipn (i * m) d)) (seq 0 n)) = d.
Proof.
  revert d. induction n as [|n IH]; intros d H; [destruct d; [reflexivity|discriminate]|]. cbn [seq map concat]. rewrite <- seq_shift, map_map.
  transitivity (firstn m d ++ skipn m d); [|apply firstn_skipn]. f_equal.
  rewrite <- (IH (skipn m d)) by (rewrite skipn_length; lia). f_equal. apply map_ext. intros i. f_equal.
  clear. replace (Datatypes.S i * m) with (m + i * m) by lia. generalize (i * m) as p. intros p. revert p. induction m as [|m IH] in d |- *; intros p; [reflexivity|].
  destruct d as [|a d]; [rewrite !skipn_nil; reflexivity|]. cbn [skipn Nat.add]. apply IH.
Qed.
Section P.
Context {A S : Type}.
Notation jarr := (list nat * list A)%type.
(** the cells of an array, in order *)
Definition the_cells (x : jarr) (k : nat) : list (arg A) :=
  let csz := size (skipn k (fst x)) in map (fun i => Ar (skipn k (fst x)) (firstn csz (skipn (i * csz) (snd x)))) (seq 0 (size (firstn k (fst x)))).
Lemma the_cells_len x k : length (the_cells x k) = size (firstn k (fst x)).
Proof. unfold the_cells. rewrite map_length, seq_length. reflexivity. Qed.
Lemma the_cells_nth (x : jarr) k i : i < size (firstn k (fst x)) ->
  nth_error (the_cells x k) i = Some (Ar (skipn k (fst x)) (firstn (size (skipn k (fst x))) (skipn (i * size (skipn k (fst x))) (snd x)))).
Proof.
  intros H. unfold the_cells. rewrite nth_error_map.
  rewrite (nth_error_nth' (seq 0 (size (firstn k (fst x)))) 0) by (rewrite seq_length; exact H). rewrite seq_nth by exact H. reflexivity.
Qed.
Lemma cell_at_i (x : jarr) k I : valid_arr x -> k <> 0 -> k <= length (fst x) -> inb (firstn k (fst x)) I ->
  cell_at k (Ar (fst x) (snd x)) I (Ar (skipn k (fst x)) (firstn (size (skipn k (fst x))) (skipn (ravel (firstn k (fst x)) I * size (skipn k (fst x))) (snd x)))).
Proof.
  intros V K KL HI. unfold cell_at. cbn [arr_of]. destruct k as [|k]; [congruence|]. set (K' := Datatypes.S k) in *.
  pose proof (ravel_lt _ _ HI) as LT. unfold valid_arr, array in V.
  eexists. split; [reflexivity|]. split.
  - unfold array. apply (slice_len _ (size (firstn K' (fst x)))); [rewrite V; apply size_split|exact LT].
  - intros J HJ. pose proof (ravel_lt _ _ HJ) as LJ. unfold elt. rewrite nth_slice by exact LJ. f_equal.
    transitivity (ravel (firstn K' (fst x) ++ skipn K' (fst x)) (I ++ J)); [|rewrite firstn_skipn; reflexivity]. rewrite ravel_app'; [reflexivity|]. apply inb_len. exact HI.
Qed.
Lemma the_cells_ok (x : jarr) k : valid_arr x -> k <> 0 -> k <= length (fst x) -> cells_of k (Ar (fst x) (snd x)) (the_cells x k).
Proof.
  intros V K KL. unfold cells_of, lead. cbn [arr_of fst]. split; [exact (the_cells_len x k)|]. intros I HI. eexists. split.
  - unfold elt. apply the_cells_nth. apply ravel_lt. exact HI.
  - apply cell_at_i; assumption.
Qed.
Lemma the_cells_in (x : jarr) k c : In c (the_cells x k) -> exists i, i < size (firstn k (fst x)) /\ c = Ar (skipn k (fst x)) (firstn (size (skipn k (fst x))) (skipn (i * size (skipn k (fst x))) (snd x))).
Proof. intros H. apply in_map_iff in H. destruct H as (i & <- & Hi). apply in_seq in Hi. exists i. split; [lia|reflexivity]. Qed.
Lemma slice_ok (x : jarr) k i : valid_arr x -> i < size (firstn k (fst x)) -> (Z.of_nat (length (snd x)) < 2 ^ 32)%Z ->
  slice x k (i * csz_of (fst x) k) = Ok (Ar (skipn k (fst x)) (firstn (size (skipn k (fst x))) (skipn (i * size (skipn k (fst x))) (snd x)))).
Proof.
  intros V H L. unfold valid_arr, array in V. rewrite (size_split k) in V. unfold slice, csz_of. rewrite usz_eq by nia. unfold sl.
  rewrite (proj2 (Nat.leb_le _ _)) by nia. reflexivity.
Qed.
Lemma cell_exists amax (x : jarr) k c : exists_val amax (Ar (fst x) (snd x)) -> In c (the_cells x k) -> exists_val amax c.
Proof.
  intros (V & R & L) H. apply the_cells_in in H. destruct H as (i & Hi & ->). unfold valid_arg, array in V. cbn [arr_of fst snd] in V, R, L. rewrite (size_split k) in V.
  assert (E : length (firstn (size (skipn k (fst x))) (skipn (i * size (skipn k (fst x))) (snd x))) = size (skipn k (fst x))).
  { apply (slice_len _ (size (firstn k (fst x)))); assumption. }
  split; [exact E|]. cbn [arr_of fst snd]. rewrite E, skipn_length. split; [lia|nia].
Qed.
Lemma unarg_arr (a : arg A) : unarg a = arr_of a.
Proof. destruct a; reflexivity. Qed.
Lemma unarg_map (l : list (arg A)) : map unarg l = map arr_of l.
Proof. apply map_ext. exact unarg_arr. Qed.
(** the loop over the cells *)
Lemma base_ok (x : jarr) k (f : arg A -> S -> res (arg A * S)) s : valid_arr x -> (Z.of_nat (length (snd x)) < 2 ^ 32)%Z -> some_cells (firstn k (fst x)) ->
  collect (usz (firstn k (fst x))) 0 (fun i s => do c <- slice x k (i * csz_of (fst x) k); f c s) s = calls f (the_cells x k) s.
Proof.
  intros V L SC. unfold some_cells in SC. rewrite usz_eq by lia. rewrite <- (the_cells_len x k) at 1. apply collect_calls.
  intros j c Hj s0. cbn [Nat.add]. assert (J : j < size (firstn k (fst x))). { rewrite <- (the_cells_len x k). apply nth_error_Some. congruence. }
  rewrite the_cells_nth in Hj by exact J. injection Hj as <-. rewrite slice_ok by assumption. reflexivity.
Qed.
Lemma gather_ok {B} amax frame (cs : list B) (f : B -> S -> res (arg A * S)) s : array frame cs -> some_cells frame -> length frame <= 255 -> (amax < 2 ^ 32)%Z ->
  (forall c s r s', In c cs -> f c s = Ok (r, s') -> exists_val amax r) -> placed amax frame (calls f cs s) (gather amax frame (calls f cs s)).
Proof.
  intros AF SC RF AM SND. unfold placed, gather. destruct (calls f cs s) as [[rs s']| |] eqn:E; [|reflexivity..]. cbn [bind]. rewrite unarg_map.
  pose proof (calls_len _ _ _ _ _ E) as LN. pose proof (calls_forall (exists_val amax) f cs SND s rs s' E) as EX.
  unfold array in AF. unfold some_cells in SC.
  assert (AO : array frame (map arr_of rs)) by (unfold array; rewrite map_length; lia).
  assert (NE : map arr_of rs <> []) by (destruct rs; [cbn [length] in LN; lia|discriminate]).
  assert (VA : Forall valid_arr (map arr_of rs)). { apply Forall_map. rewrite Forall_forall in *. intros r Hr. exact (proj1 (EX r Hr)). }
  assert (LM : length (map arr_of rs) = size frame) by (exact AO).
  assert (HR : exists r0 rs0, rs = r0 :: rs0) by (destruct rs as [|r0 rs0]; [cbn [length] in LN; lia|exists r0, rs0; reflexivity]). destruct HR as (r0 & rs0 & ER).
  set (t := fst (arr_of r0)).
  destruct (all_or_not t (map arr_of rs)) as [F|F].
  - assert (F' : Forall (fun r => fst (arr_of r) = t) rs) by (rewrite Forall_map in F; exact F).
    destruct (le_lt_dec (length frame + length t) 255) as [R|R].
    + destruct (Z_le_gt_dec (Z.of_nat (size frame) * Z.of_nat (size t)) amax) as [B0|B0].
      * left. exists t, (frame ++ t, concat (map snd (map arr_of rs))). split; [split; [exact F'|split; assumption]|].
        rewrite (merge_ok amax frame _ t) by (try assumption; rewrite ?LM; lia). split; [reflexivity|]. apply concat_merged; assumption.
      * right. split.
        { intros u (Fu & _ & Bu). rewrite ER in Fu. apply Forall_inv in Fu. cbn beta in Fu. fold t in Fu. rewrite <- Fu in Bu. lia. }
        destruct (le_lt_dec 2 (size frame)) as [T|T].
        { rewrite (merge_big amax frame _ t); [reflexivity|try assumption; rewrite ?LM; lia..]. }
        exfalso. assert (size frame = 1) by lia. rewrite ER in EX. apply Forall_inv in EX. destruct EX as (Vx & _ & Lx). unfold valid_arg, array in Vx. fold t in Vx. rewrite Vx in Lx. nia.
    + right. split.
      { intros u (Fu & Ru & _). rewrite ER in Fu. apply Forall_inv in Fu. cbn beta in Fu. fold t in Fu. rewrite <- Fu in Ru. lia. }
      rewrite merge_err; [reflexivity|try assumption; rewrite ?LM; try lia..].
      intros u Fu. rewrite ER in Fu. cbn [map] in Fu. apply Forall_inv in Fu. cbn beta in Fu. fold t in Fu. rewrite <- Fu. exact R.
  - right. assert (NF : ~ Forall (fun a => fst a = t) (map arr_of rs)). { intros G. apply Exists_exists in F. destruct F as (a & Ha & Na). rewrite Forall_forall in G. exact (Na (G a Ha)). }
    split.
    + intros u (Fu & _). assert (u = t). { pose proof Fu as G. rewrite ER in G. apply Forall_inv in G. cbn beta in G. symmetry. exact G. } subst u. apply NF. apply Forall_map. exact Fu.
    + rewrite merge_err; [reflexivity|try assumption; rewrite ?LM; try lia..].
      intros u Fu. exfalso. assert (u = t). { pose proof Fu as G. rewrite ER in G. cbn [map] in G. apply Forall_inv in G. cbn beta in G. symmetry. exact G. } subst u. exact (NF Fu).
Qed.
(** a result given directly *)
Lemma direct {B} amax frame (cs : list B) (f : B -> S -> res (arg A * S)) (g : B -> arg A) s t d : array frame cs -> length frame + length t <= 255 ->
  (Z.of_nat (size frame) * Z.of_nat (size t) <= amax)%Z -> (forall c, In c cs -> f c s = Ok (g c, s)) ->
  (forall c, In c cs -> fst (arr_of (g c)) = t /\ valid_arg (g c)) -> d = concat (map (fun c => snd (arr_of (g c))) cs) ->
  placed amax frame (calls f cs s) (Ok ((frame ++ t, d), s)).
Proof.
  intros AF R B0 F G ->. rewrite (calls_map f g) by exact F. unfold placed. left. exists t, (frame ++ t, concat (map (fun c => snd (arr_of (g c))) cs)).
  assert (F1 : Forall (fun r => fst (arr_of r) = t) (map g cs)). { apply Forall_map, Forall_forall. intros c Hc. apply G. exact Hc. }
  split; [split; [exact F1|split; assumption]|]. split; [reflexivity|].
  replace (concat (map (fun c => snd (arr_of (g c))) cs)) with (concat (map snd (map arr_of (map g cs)))) by (rewrite !map_map; reflexivity).
  apply concat_merged.
  - unfold array. rewrite !map_length. exact AF.
  - apply Forall_map, Forall_map, Forall_forall. intros c Hc. apply G. exact Hc.
  - apply Forall_map. exact F1.
Qed.
End P.
