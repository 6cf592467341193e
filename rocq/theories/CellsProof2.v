(** Proofs about CellsModel: lists. *)
From Verif Require Import Base SqueezeModel TransSpec JoinModel JoinSpec JoinProof JoinProof2 JoinProof4 MapModel MapSpec MapProof MapProof2 MapProof4 CellsModel CellsSpec CellsProof.
From Coq Require Import Lia ZArith.
Open Scope nat_scope.
Lemma size_cons n t : size (n :: t) = n * size t.
Proof. reflexivity. Qed.
Lemma skipn_cons {A} (l : list A) k : k < length l -> exists a, rd l k = Ok a /\ nth_error l k = Some a /\ skipn k l = a :: skipn (k + 1) l.
Proof.
  revert k. induction l as [|a l IH]; intros k H; cbn [length] in H; [lia|]. destruct k as [|k]; [exists a; repeat split|].
  destruct (IH k ltac:(lia)) as (b & R & N & E). exists b. unfold rd in *. cbn [nth_error Nat.add]. split; [exact R|]. split; [exact N|]. exact E.
Qed.
Lemma mapr_ext {A B} (f g : A -> res B) l : (forall a, In a l -> f a = g a) -> mapr f l = mapr g l.
Proof. induction l as [|a l IH]; intros H; [reflexivity|]. cbn [mapr]. rewrite (H a (or_introl eq_refl)), IH; [reflexivity|]. intros b Hb. apply H. right. exact Hb. Qed.
Lemma mapr_all {A B} (f : A -> res B) (g : A -> B) l : (forall a, In a l -> f a = Ok (g a)) -> mapr f l = Ok (map g l).
Proof. intros H. rewrite (mapr_ext f (fun a => Ok (g a))) by exact H. apply mapr_ok. Qed.
Lemma blocks_slices {A} n m (d : list A) : blocks n m d = map (fun i => firstn m (skipn (i * m) d)) (seq 0 n).
Proof.
  revert d. induction n as [|n IH]; intros d; [reflexivity|]. cbn [blocks seq map]. f_equal. rewrite <- seq_shift, map_map, IH. apply map_ext. intros i. f_equal.
  replace (Datatypes.S i * m) with (m + i * m) by lia. generalize (i * m) as p. clear. revert d. induction m as [|m IH]; intros d p; [reflexivity|].
  destruct d as [|a d]; [rewrite !skipn_nil; reflexivity|]. cbn [skipn Nat.add]. apply IH.
Qed.
Lemma firstn_len_all {A} (l : list A) n : length l = n -> firstn n l = l.
Proof. intros <-. apply firstn_all. Qed.
Lemma div_cell a n m : a = n * m -> n <> 0 -> a / n = m.
Proof. intros -> H. rewrite Nat.mul_comm. apply Nat.div_mul. exact H. Qed.
Lemma skipn_add {A} (l : list A) : forall a b, skipn a (skipn b l) = skipn (b + a) l.
Proof. induction l as [|v l IH]; intros a b; [rewrite !skipn_nil; reflexivity|]. destruct b as [|b]; [reflexivity|]. cbn [skipn Nat.add]. apply IH. Qed.
Lemma sub_slice {A} (l : list A) a m n : a + m <= n -> firstn m (skipn a (firstn n l)) = firstn m (skipn a l).
Proof. intros H. rewrite skipn_firstn_comm, firstn_firstn. f_equal. lia. Qed.
Lemma nth_error_rd {A} (l : list A) i a : nth_error l i = Some a -> rd l i = Ok a.
Proof. intros H. unfold rd. rewrite H. reflexivity. Qed.
Lemma select_single_ok {A} (d : list A) ind cam l m : length d = cam * (l * m) -> ind < l ->
  select_single ind d cam l m = Ok (concat (map (fun i => firstn m (skipn (ind * m) (firstn (l * m) (skipn (i * (l * m)) d)))) (seq 0 cam))).
Proof.
  intros L I. unfold select_single. destruct (Nat.eqb_spec l 1) as [->|N].
  - f_equal. assert (ind = 0) by lia. subst ind. rewrite Nat.mul_1_l in *. rewrite <- (concat_slices d cam m L) at 1. f_equal. apply map_ext. intros i. cbn [Nat.mul skipn].
    rewrite firstn_firstn, Nat.min_id. reflexivity.
  - rewrite (mapr_all _ (fun i => firstn m (skipn (ind * m) (firstn (l * m) (skipn (i * (l * m)) d))))); [reflexivity|].
    intros i Hi. apply in_seq in Hi. unfold sl. assert (i * (l * m) + l * m <= cam * (l * m)) by nia. assert (m * ind + m <= l * m) by nia.
    rewrite (proj2 (Nat.leb_le _ _)) by lia. rewrite sub_slice by lia. rewrite skipn_add. do 3 f_equal. lia.
Qed.
Lemma wr_at {A} (pre post : list A) v u : wr (pre ++ v :: post) (length pre) u = Ok (pre ++ u :: post).
Proof.
  unfold wr. destruct (Nat.ltb_spec (length pre) (length (pre ++ v :: post))) as [_|H]; [|rewrite app_length in H; cbn [length] in H; lia].
  f_equal. induction pre as [|p pre IH]; [reflexivity|]. cbn [app length upd]. f_equal. exact IH.
Qed.
Lemma slices_cons {A B} (g : list A -> B) n m (d : list A) :
  map (fun i => g (firstn m (skipn (i * m) d))) (seq 0 (Datatypes.S n)) = g (firstn m d) :: map (fun i => g (firstn m (skipn (i * m) (skipn m d)))) (seq 0 n).
Proof.
  cbn [seq map]. f_equal. rewrite <- seq_shift, map_map. apply map_ext. intros i. rewrite skipn_add. do 3 f_equal.
Qed.
Lemma firstn_split {A} (d : list A) n : n <= length d -> exists c d', d = c ++ d' /\ length c = n /\ firstn n d = c /\ skipn n d = d'.
Proof. intros H. exists (firstn n d), (skipn n d). rewrite firstn_skipn, firstn_length. repeat split. lia. Qed.
Lemma column_before {A} (z : A) n : 0 < n -> forall cam (d pre : list A) a, length d = cam * n -> cam <> 0 ->
  set_column (pre ++ a :: firstn (length d - 1) d) z (length pre) n cam = Ok (pre ++ concat (map (fun i => z :: firstn (n - 1) (firstn n (skipn (i * n) d))) (seq 0 cam))).
Proof.
  intros N. induction cam as [|cam IH]; intros d pre a L C; [lia|].
  rewrite (slices_cons (fun c => z :: firstn (n - 1) c)). cbn [concat]. cbn [set_column]. rewrite wr_at. cbn [bind].
  destruct (firstn_split d n ltac:(lia)) as (c & d' & -> & LC & F1 & F2). rewrite F1, F2.
  rewrite app_length in *. assert (L' : length d' = cam * n) by lia.
  destruct cam as [|cam].
  - cbn [set_column seq map concat]. destruct d'; [|cbn [length] in L'; lia]. rewrite !app_nil_r. do 5 f_equal. cbn [length]. lia.
  - replace (firstn (length c + length d' - 1) (c ++ d')) with (c ++ firstn (length d' - 1) d').
    2: { rewrite firstn_app. rewrite (firstn_all2 c) by nia. do 2 f_equal. nia. }
    assert (B : exists b, c = firstn (n - 1) c ++ [b]).
    { exists (last c z).
      destruct (exists_last (l := c)) as (c0 & b & Ec); [destruct c; [cbn [length] in LC; lia|discriminate]|]. subst c. rewrite last_last. rewrite app_length in LC. cbn [length] in LC.
      rewrite firstn_app. replace (n - 1 - length c0) with 0 by lia. rewrite (firstn_all2 c0) by lia. cbn [firstn]. rewrite app_nil_r. reflexivity. }
    destruct B as (b & Eb). set (c1 := firstn (n - 1) c) in *. assert (LC1 : length c1 = n - 1) by (unfold c1; rewrite firstn_length; lia).
    rewrite Eb at 1. rewrite <- app_assoc. cbn [app].
    replace (pre ++ z :: c1 ++ b :: firstn (length d' - 1) d') with ((pre ++ z :: c1) ++ b :: firstn (length d' - 1) d') by (rewrite <- app_assoc; reflexivity).
    replace (length pre + n) with (length (pre ++ z :: c1)) by (rewrite app_length; cbn [length]; lia).
    rewrite IH by (exact L' || lia). rewrite <- app_assoc. reflexivity.
Qed.
Lemma column_after {A} (z : A) n : 0 < n -> forall cam (d pre : list A) y, length d = cam * n -> cam <> 0 ->
  set_column (pre ++ skipn 1 d ++ [y]) z (length pre + (n - 1)) n cam = Ok (pre ++ concat (map (fun i => skipn 1 (firstn n (skipn (i * n) d)) ++ [z]) (seq 0 cam))).
Proof.
  intros N. induction cam as [|cam IH]; intros d pre y L C; [lia|].
  rewrite (slices_cons (fun c => skipn 1 c ++ [z])). cbn [concat]. cbn [set_column].
  destruct (firstn_split d n ltac:(lia)) as (c & d' & -> & LC & F1 & F2). rewrite F1, F2. rewrite app_length in *. assert (L' : length d' = cam * n) by lia.
  destruct c as [|c0 c]; [cbn [length] in LC; lia|]. cbn [app skipn]. cbn [length] in LC.
  replace (length pre + (n - 1)) with (length (pre ++ c)) by (rewrite app_length; lia).
  destruct cam as [|cam].
  - destruct d'; [|cbn [length] in L'; lia]. rewrite app_nil_r, app_assoc. rewrite wr_at. cbn [bind set_column seq map concat]. rewrite app_nil_r, <- app_assoc. reflexivity.
  - assert (Ed : exists e d2, d' = e :: d2) by (destruct d' as [|e d2]; [cbn [length] in L'; nia|exists e, d2; reflexivity]). destruct Ed as (e & d2 & Ed).
    replace (pre ++ (c ++ d') ++ [y]) with ((pre ++ c) ++ e :: skipn 1 d' ++ [y]) by (rewrite Ed; cbn [skipn]; rewrite <- !app_assoc; reflexivity).
    rewrite wr_at. cbn [bind].
    replace ((pre ++ c) ++ z :: skipn 1 d' ++ [y]) with ((pre ++ c ++ [z]) ++ skipn 1 d' ++ [y]) by (rewrite <- !app_assoc; reflexivity).
    replace (length (pre ++ c) + n) with (length (pre ++ c ++ [z]) + (n - 1)) by (rewrite !app_length; cbn [length]; lia).
    rewrite IH by (exact L' || lia). rewrite <- !app_assoc. reflexivity.
Qed.
Lemma skipn_seq n : forall a b, skipn a (seq b n) = seq (b + a) (n - a).
Proof. induction n as [|n IH]; intros a b; [rewrite skipn_nil; reflexivity|]. destruct a as [|a]; [rewrite Nat.add_0_r; reflexivity|]. cbn [seq skipn Nat.sub]. rewrite IH. f_equal. lia. Qed.
Lemma seq_from a n : seq a n = map (fun j => a + j) (seq 0 n).
Proof. rewrite <- (Nat.add_0_r a) at 1. generalize 0 as b. induction n as [|n IH]; intros b; [reflexivity|]. cbn [seq map]. f_equal. rewrite <- IH. f_equal. lia. Qed.
Lemma rev_inds l : l <= 64 -> firstn l (skipn (64 - l) reverse_inds) = map (fun j => l - 1 - j) (seq 0 l).
Proof.
  intros H. unfold reverse_inds. rewrite skipn_map, skipn_seq. replace (64 - (64 - l)) with l by lia. rewrite firstn_map, (firstn_len_all (seq (0 + (64 - l)) l)) by apply seq_length.
  rewrite Nat.add_0_l, seq_from, map_map. apply map_ext_in. intros j Hj. apply in_seq in Hj. lia.
Qed.
Lemma rev_nth_map {A} (c : list A) a : map (fun j => nth (length c - 1 - j) c a) (seq 0 (length c)) = rev c.
Proof.
  apply (nth_ext _ _ a a); [rewrite map_length, seq_length, rev_length; reflexivity|]. intros i Hi. rewrite map_length, seq_length in Hi.
  rewrite rev_nth by exact Hi. apply nth_error_nth. rewrite nth_error_map. rewrite (nth_error_nth' _ 0) by (rewrite seq_length; exact Hi). rewrite seq_nth by exact Hi. cbn [option_map]. do 2 f_equal. lia.
Qed.
Lemma rev_units {A} (c : list A) : concat (rev (blocks (length c) 1 c)) = rev c.
Proof. induction c as [|a c IH]; [reflexivity|]. cbn [length blocks firstn skipn rev]. rewrite concat_app, IH. reflexivity. Qed.
