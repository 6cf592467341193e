From Verif Require Import Base BitsModel SqueezeModel SqueezeProof ReuseModel TransSpec RevBitModel RevBitProof FnsModel FnsSpec.
From Coq Require Import List.
Open Scope Z_scope.

(** * Range of a number *)
Lemma map_id_in {A} (f : A -> A) l : (forall a, In a l -> f a = a) -> map f l = l.
Proof. induction l as [|a l IH]; intros H; [reflexivity|]. cbn [map]. rewrite H by (left; reflexivity). f_equal. apply IH. intros b B. apply H. right; exact B. Qed.
Lemma o2s_ok z : 0 <= z < 2 ^ 32 -> o2s (VNum z) = Ok z.
Proof. intros H. unfold o2s. replace ((0 <=? z) && (z <? 2 ^ 32)) with true by lia. reflexivity. Qed.
Lemma intRange_ok k n : 0 < k -> Z.of_nat n <= 2 ^ (k - 1) -> intRange k n = map Z.of_nat (seq 0 n).
Proof. intros K N. unfold intRange. apply map_ext_in. intros i H. apply in_seq in H. assert (0 < 2 ^ (k - 1)) by (apply Z.pow_pos_nonneg; lia). rewrite (to_s_id k (Z.of_nat i)) by lia. apply to_s_id; lia. Qed.
Lemma seq_shift_add s n : seq s n = map (fun j => s + j)%nat (seq 0 n).
Proof. revert s. induction n as [|n IH]; intros s; [reflexivity|]. cbn [seq map]. f_equal; [lia|]. rewrite IH, (IH 1%nat), map_map. apply map_ext. intros a. lia. Qed.
Lemma blocks_ok b : forall c, f64_blocks b c = (map (fun j => c + Z.of_nat j) (seq 0 (16 * b)), c + 16 * Z.of_nat b).
Proof.
  induction b as [|b IH]; intros c; [cbn [f64_blocks]; f_equal; lia|]. cbn [f64_blocks]. rewrite IH. f_equal; [|lia].
  replace (16 * S b)%nat with (16 + 16 * b)%nat by lia. rewrite seq_app, map_app. f_equal. rewrite (seq_shift_add (0 + 16)), map_map. apply map_ext. intros j. lia.
Qed.
Lemma range64_ok n : 0 <= n -> intRangeF64 n = map Z.of_nat (seq 0 (Z.to_nat n)).
Proof.
  intros N. unfold intRangeF64. rewrite blocks_ok. change 15 with (Z.ones 4). rewrite Z.land_ones by lia. change (2 ^ 4) with 16.
  replace (Z.to_nat n) with (16 * Z.to_nat (n / 16) + Z.to_nat (n mod 16))%nat by lia. rewrite seq_app, map_app. apply (f_equal2 (@app Z)); [apply map_ext; intros; lia|].
  rewrite (seq_shift_add (0 + _)), map_map. apply map_ext. intros j. lia.
Qed.
(** the narrowest type for the numbers below n; the builtin list for 0 to 2 *)
Lemma range_atom_ok n : 0 <= n < 2 ^ 32 -> exists e, range_atom (VNum n) = Ok (e, map Z.of_nat (seq 0 (Z.to_nat n))) /\
  forall i, 0 <= i < n -> fits e (VNum i) = true.
Proof.
  intros N. unfold range_atom. rewrite o2s_ok by auto. cbn [bind].
  destruct (Z.leb_spec n 2).
  { exists EBit. split; [|intros; cbn [fits]; lia]. assert (n = 0 \/ n = 1 \/ n = 2) as [-> | [-> | ->]] by lia; reflexivity. }
  destruct (Z.leb_spec n (127 + 1)).
  { exists EI8. split; [|intros; cbn [fits]; lia]. do 2 f_equal. apply map_ext_in. intros i H1. apply in_seq in H1. apply to_s_id; [lia|]. change (2 ^ (8 - 1)) with 128. lia. }
  cbv zeta. destruct (Z.leb_spec (n - 1) 32767).
  { exists EI16. split; [|intros; cbn [fits]; lia]. do 2 f_equal. apply intRange_ok; [lia|]. change (2 ^ (16 - 1)) with 32768. lia. }
  destruct (Z.leb_spec (n - 1) 2147483647).
  { exists EI32. split; [|intros; cbn [fits]; lia]. do 2 f_equal. apply intRange_ok; [lia|]. change (2 ^ (32 - 1)) with 2147483648. lia. }
  exists EF64. split; [|reflexivity]. rewrite range64_ok by lia. reflexivity.
Qed.

(** * the recursion *)
Lemma for_inv {S} (P : nat -> S -> Prop) (f : nat -> S -> res S) : forall n i s, (forall j s, (i <= j < i + n)%nat -> P j s -> exists s', f j s = Ok s' /\ P (j + 1)%nat s') -> P i s ->
  exists s', for_i f i n s = Ok s' /\ P (i + n)%nat s'.
Proof.
  induction n as [|n IH]; intros i s H P0; cbn [for_i]; [exists s; rewrite Nat.add_0_r; auto|].
  destruct (H i s ltac:(lia) P0) as (s1 & E & P1). rewrite E. cbn [bind]. destruct (IH (i + 1)%nat s1) as (s2 & E2 & P2); [intros; apply H; auto; lia|auto|].
  exists s2. split; [auto|]. replace (i + Datatypes.S n)%nat with (i + 1 + n)%nat by lia. auto.
Qed.
Fixpoint allidx (sh : list nat) : list (list nat) := match sh with [] => [[]] | l :: sh => flat_map (fun i => map (cons i) (allidx sh)) (seq 0 l) end.
Lemma wr_ok' {A} (l : list A) i v : (i < length l)%nat -> wr l i v = Ok (firstn i l ++ v :: skipn (i + 1) l).
Proof.
  intros H. unfold wr. replace (i <? length l)%nat with true by lia. f_equal. revert i H. induction l as [|a l IH]; intros [|i] H; cbn [length] in H; try lia; [reflexivity|].
  cbn [upd firstn Nat.add skipn app]. rewrite IH by lia. reflexivity.
Qed.
Lemma rd_ok {A} (l : list A) i d : (i < length l)%nat -> rd l i = Ok (nth i l d).
Proof. intros H. unfold rd. rewrite (nth_error_nth' l d H). reflexivity. Qed.
Lemma firstn_snoc {A} (l : list A) i d : (i < length l)%nat -> firstn (i + 1) l = firstn i l ++ [nth i l d].
Proof. revert i. induction l as [|a l IH]; intros [|i] H; cbn [length] in H; try lia; [reflexivity|]. cbn [Nat.add firstn nth app]. rewrite IH by lia. reflexivity. Qed.
Lemma firstn_app_l {A} (a b : list A) n : length a = n -> firstn n (a ++ b) = a.
Proof. intros <-. rewrite firstn_app, Nat.sub_diag, firstn_all. cbn [firstn]. apply app_nil_r. Qed.
Lemma skipn_repeat {A} (v : A) n m : skipn n (repeat v m) = repeat v (m - n).
Proof. revert m. induction n as [|n IH]; intros [|m]; cbn [skipn repeat Nat.sub]; auto. Qed.
Lemma seq_snoc i n : seq i (n + 1) = seq i n ++ [(i + n)%nat].
Proof. rewrite seq_app. reflexivity. Qed.

Section U.
Variable k : Z.
Hypothesis K : 0 < k.
Lemma copy_p1 pos d r : (d <= r)%nat -> length pos = r -> for_i (fun i p1 => do v <- rd pos i; wr p1 i v) 0 d (repeat 0 r) = Ok (firstn d pos ++ repeat 0 (r - d)).
Proof.
  intros D L. destruct (for_inv (fun j p => p = firstn j pos ++ repeat 0 (r - j)) (fun i p1 => do v <- rd pos i; wr p1 i v) d 0%nat (repeat 0 r)) as (p & E & ->).
  - intros j p J ->. rewrite (rd_ok pos j 0) by lia. cbn [bind]. rewrite wr_ok' by (rewrite app_length, firstn_length, repeat_length; lia). eexists; split; [reflexivity|].
    rewrite firstn_app_l by (rewrite firstn_length; lia). rewrite (firstn_snoc pos j 0) by lia. rewrite <- app_assoc. f_equal. cbn [app]. f_equal.
    rewrite skipn_app, skipn_all2 by (rewrite firstn_length; lia). cbn [app]. rewrite skipn_repeat. f_equal. rewrite firstn_length. lia.
  - rewrite Nat.sub_0_r. reflexivity.
  - exact E.
Qed.
Lemma ud_ok : forall rest pre pos out fuel, rest <> [] -> (length rest <= fuel)%nat -> length pos = length (pre ++ rest) -> Forall (fun l => Z.of_nat l <= 2 ^ (k - 1)) rest ->
  exists pos', ud_rec k fuel (length pre) (length (pre ++ rest)) pos (map Z.of_nat (pre ++ rest)) out
               = Ok (pos', out ++ map (fun I => firstn (length pre) pos ++ map Z.of_nat I) (allidx rest)) /\ length pos' = length pos /\ firstn (length pre) pos' = firstn (length pre) pos.
Proof.
  induction rest as [|l rest IH]; intros pre pos out fuel NE F L B; [contradiction|]. cbn [length] in F. destruct fuel as [|fuel]; [lia|]. cbn [ud_rec].
  assert (LT : (length pre < length (pre ++ l :: rest))%nat) by (rewrite app_length; cbn [length]; lia).
  rewrite (rd_ok _ _ 0) by (rewrite map_length; exact LT). cbn [bind].
  replace (nth (length pre) (map Z.of_nat (pre ++ l :: rest)) 0) with (Z.of_nat l) by (rewrite map_app, app_nth2, map_length, Nat.sub_diag by (rewrite map_length; lia); reflexivity).
  rewrite Nat2Z.id. pose proof (Forall_inv B) as B0. pose proof (Forall_inv_tail B) as BT. cbv beta in B0.
  assert (TS : forall i, (i < l)%nat -> to_s k (Z.of_nat i) = Z.of_nat i) by (intros i Hi; assert (0 < 2 ^ (k - 1)) by (apply Z.pow_pos_nonneg; lia); apply to_s_id; lia).
  set (d := length pre) in *. set (r := length (pre ++ l :: rest)) in *.
  destruct (Nat.eqb_spec (d + 1) r) as [E|E].
  - assert (R0 : rest = []) by (destruct rest; [reflexivity|unfold r, d in E; rewrite app_length in E; cbn [length] in E; lia]). subst rest.
    destruct (for_inv (fun j (s : list Z * list (list Z)) => s = (pos, out ++ map (fun I => firstn d pos ++ map Z.of_nat I) (flat_map (fun i => map (cons i) [[]]) (seq 0 j))))
      (fun i '(pos, out) => do p1 <- for_i (fun i p1 => do v <- rd pos i; wr p1 i v) 0 d (repeat 0 r); do p1 <- wr p1 d (to_s k (Z.of_nat i)); Ok (pos, out ++ [p1])) l 0%nat (pos, out)) as (s & E1 & ->).
    + intros j s J ->. rewrite copy_p1 by lia. cbn [bind]. rewrite wr_ok' by (rewrite app_length, firstn_length, repeat_length; lia). cbn [bind]. eexists; split; [reflexivity|].
      rewrite TS by lia. rewrite firstn_app_l by (rewrite firstn_length; lia). rewrite skipn_app, skipn_all2 by (rewrite firstn_length; lia). cbn [app]. rewrite skipn_repeat, firstn_length.
      replace (r - d - (d + 1 - Nat.min d (length pos)))%nat with 0%nat by lia. cbn [repeat]. rewrite seq_snoc, flat_map_app, map_app, <- app_assoc. reflexivity.
    + cbn [seq flat_map map]. rewrite app_nil_r. reflexivity.
    + exists pos. rewrite E1. cbn [allidx Nat.add]. auto.
  - assert (NR : rest <> []) by (intros ->; unfold r, d in E; rewrite app_length in E; cbn [length] in E; lia).
    destruct (for_inv (fun j (s : list Z * list (list Z)) => length (fst s) = length pos /\ firstn d (fst s) = firstn d pos /\
        snd s = out ++ map (fun I => firstn d pos ++ map Z.of_nat I) (flat_map (fun i => map (cons i) (allidx rest)) (seq 0 j)))
      (fun i '(pos, out) => do pos <- wr pos d (to_s k (Z.of_nat i)); ud_rec k fuel (d + 1) r pos (map Z.of_nat (pre ++ l :: rest)) out) l 0%nat (pos, out)) as (s & E1 & L1 & F1 & O1).
    + intros j [p o] J (L1 & F1 & O1). cbn [fst snd] in *. rewrite wr_ok' by lia. cbn [bind]. rewrite TS by lia.
      set (q := firstn d p ++ Z.of_nat j :: skipn (d + 1) p).
      assert (LQ : length q = length pos) by (unfold q; rewrite app_length, firstn_length; cbn [length]; rewrite skipn_length; lia).
      assert (AP : pre ++ l :: rest = (pre ++ [l]) ++ rest) by (rewrite <- app_assoc; reflexivity).
      destruct (IH (pre ++ [l]) q o fuel NR ltac:(lia)) as (p' & E2 & L2 & F2); [rewrite LQ, L; unfold r; rewrite AP; reflexivity|exact BT|].
      rewrite app_length in E2, F2. cbn [length] in E2, F2. fold d in E2, F2. rewrite <- AP in E2. fold r in E2. rewrite E2. eexists; split; [reflexivity|]. cbn [fst snd].
      assert (FQ : firstn (d + 1) q = firstn d pos ++ [Z.of_nat j]).
      { unfold q. change (Z.of_nat j :: skipn (d + 1) p) with ([Z.of_nat j] ++ skipn (d + 1) p). rewrite app_assoc. rewrite firstn_app_l by (rewrite app_length, firstn_length; cbn [length]; lia). rewrite F1. reflexivity. }
      split; [lia|]. split.
      * replace (firstn d p') with (firstn d (firstn (d + 1) p')) by (rewrite firstn_firstn; f_equal; lia). rewrite F2, FQ. apply firstn_app_l. rewrite firstn_length; lia.
      * rewrite O1, seq_snoc, flat_map_app, map_app, <- app_assoc. f_equal. f_equal. cbn [flat_map]. rewrite app_nil_r, map_map. apply map_ext. intros I. rewrite FQ, <- app_assoc. reflexivity.
    + cbn [fst snd seq flat_map map]. rewrite app_nil_r. auto.
    + destruct s as [p o]. cbn [fst snd Nat.add] in *. exists p. rewrite E1, O1. cbn [allidx]. auto.
Qed.
End U.

Lemma allidx_len sh : length (allidx sh) = size sh.
Proof.
  induction sh as [|l sh IH]; [reflexivity|]. cbn [allidx]. change (size (l :: sh)) with (l * size sh)%nat. rewrite <- IH. generalize 0%nat. induction l as [|l IHl]; intros s; [reflexivity|].
  cbn [seq flat_map]. rewrite app_length, map_length, IHl. lia.
Qed.
Lemma nth_flat {A} (f : nat -> list A) c : forall l s, (forall i, length (f i) = c) -> forall i j, (i < l)%nat -> (j < c)%nat -> nth_error (flat_map f (seq s l)) (i * c + j) = nth_error (f (s + i)%nat) j.
Proof.
  induction l as [|l IH]; intros s H i j I J; [lia|]. cbn [seq flat_map]. destruct i as [|i].
  - rewrite nth_error_app1 by (rewrite H; lia). rewrite Nat.add_0_r. reflexivity.
  - rewrite nth_error_app2 by (rewrite H; lia). rewrite H. replace (S i * c + j - c)%nat with (i * c + j)%nat by lia. rewrite IH by (auto; lia). f_equal. f_equal. lia.
Qed.
Lemma ravel_lt' sh I : inb sh I -> (ravel sh I < size sh)%nat.
Proof. induction 1 as [|l i sh I H F IH]; [cbn; lia|]. cbn [ravel]. change (size (l :: sh)) with (l * size sh)%nat. nia. Qed.
Lemma allidx_elt sh : forall I, inb sh I -> nth_error (allidx sh) (ravel sh I) = Some I.
Proof.
  intros I H. induction H as [|l i sh I H F IH]; [reflexivity|]. cbn [allidx ravel]. rewrite (nth_flat _ (size sh)); [|intros; rewrite map_length, allidx_len; reflexivity|auto|apply ravel_lt'; exact F].
  rewrite nth_error_map, IH. reflexivity.
Qed.
