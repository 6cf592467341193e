(** Sums of counts, and Indices. *)
From Verif Require Import Base ListLib BitsModel BitsSpec BitsProof BitsProof2 SqueezeModel SqueezeProof WidenModel SlashModel SlashModel2 SlashSpec SlashProof SlashBsp SlashWhere2.
From Coq Require Import List.

Definition natb (e : option Z) : bool := match e with Some z => 0 <=? z | None => false end.
Definition usum_spec (l : list (option Z)) : res Z := if forallb natb l && (total (nats_of l) <? 2 ^ 64) then Ok (total (nats_of l)) else Err.
Lemma total_nonneg l : forallb natb l = true -> 0 <= total (nats_of l).
Proof. induction l as [|[z|] l IH]; cbn [forallb natb nats_of map total fold_right]; intros H; [lia| |discriminate H]. apply andb_true_iff in H. destruct H as [H1 H2]. apply Z.leb_le in H1. specialize (IH H2). unfold total, nats_of in *. lia. Qed.
Lemma total_app a b : total (a ++ b) = total a + total b. Proof. unfold total. induction a as [|x a IH]; auto. cbn [app fold_right]. lia. Qed.
Lemma generic_ok l : forall r, 0 <= r < 2 ^ 64 -> usum_generic l r = if forallb natb l && (r + total (nats_of l) <? 2 ^ 64) then Ok (r + total (nats_of l)) else Err.
Proof.
  induction l as [|[z|] l IH]; intros r R; cbn [usum_generic forallb natb nats_of map total fold_right andb]; auto.
  - rewrite Z.add_0_r. destruct (Z.ltb_spec r (2 ^ 64)); [auto|lia].
  - fold (nats_of l) (total (nats_of l)). destruct (Z.ltb_spec z 0); cbn [orb]. { destruct (Z.leb_spec 0 z); [lia|auto]. } destruct (Z.leb_spec 0 z); [cbn [andb]|lia].
    destruct (Z.leb_spec (2 ^ 64) z). { destruct (forallb natb l) eqn:F; auto. pose proof (total_nonneg l F). cbn [andb]. destruct (Z.ltb_spec (r + (z + total (nats_of l))) (2 ^ 64)); [lia|auto]. }
    destruct (Z.leb_spec (2 ^ 64) (r + z)). { destruct (forallb natb l) eqn:F; auto. pose proof (total_nonneg l F). cbn [andb]. destruct (Z.ltb_spec (r + (z + total (nats_of l))) (2 ^ 64)); [lia|auto]. }
    rewrite IH by lia. rewrite Z.add_assoc. auto.
Qed.
Lemma generic_spec l : usum_generic l 0 = usum_spec l. Proof. rewrite generic_ok by lia. rewrite Z.add_0_l. auto. Qed.
Lemma nats_some l : nats_of (map Some l) = l. Proof. unfold nats_of. rewrite map_map. apply map_id. Qed.
Definition nonneg (l : list Z) : bool := forallb (fun z => 0 <=? z) l.
Lemma natb_some l : forallb natb (map Some l) = nonneg l. Proof. induction l as [|z l IH]; auto. cbn [map forallb natb nonneg]. rewrite IH. auto. Qed.
Lemma spec_neg all : nonneg all = false -> usum_generic (map Some all) 0 = Err. Proof. intros H. rewrite generic_spec. unfold usum_spec. rewrite natb_some, H. auto. Qed.
Lemma nonneg_app a b : nonneg (a ++ b) = nonneg a && nonneg b. Proof. apply forallb_app. Qed.
Lemma nonneg_total l : nonneg l = true -> 0 <= total l. Proof. intros H. rewrite <- (nats_some l). apply total_nonneg. rewrite natb_some. auto. Qed.

Lemma acc_ok k l : forall m s, 0 < k -> Forall (fun z => - 2 ^ (k - 1) <= z < 2 ^ (k - 1)) l -> 0 <= m -> s = s ->
  (exists n, - n * 2 ^ (k - 1) <= s <= n * (2 ^ (k - 1) - 1) /\ 0 <= n /\ n + Z.of_nat (length l) <= 2 ^ k) ->
  exists m', fold_left (block_acc k) l (m, s) = (m', s + total l) /\ (m' <? 0) = negb (nonneg l).
Proof.
  assert (G : forall l m s, 0 < k -> Forall (fun z => - 2 ^ (k - 1) <= z < 2 ^ (k - 1)) l -> (exists n, - n * 2 ^ (k - 1) <= s <= n * (2 ^ (k - 1) - 1) /\ 0 <= n /\ n + Z.of_nat (length l) <= 2 ^ k) ->
    exists m', fold_left (block_acc k) l (m, s) = (m', s + total l) /\ (m' <? 0) = (m <? 0) || negb (nonneg l)).
  { clear l. induction l as [|z l IH]; intros m s K F (n&Hs&N0&N); cbn [fold_left].
    - exists m. cbn [total fold_right nonneg forallb negb]. rewrite Z.add_0_r, orb_false_r. auto.
    - inversion F as [|? ? Hz F']; subst. cbn [block_acc length] in *.
      assert (P : 2 ^ (2 * k - 1) = 2 ^ k * 2 ^ (k - 1)) by (rewrite <- Z.pow_add_r by lia; f_equal; lia). assert (P1 : 0 < 2 ^ (k - 1)) by (apply Z.pow_pos_nonneg; lia).
      assert (S1 : - (n + 1) * 2 ^ (k - 1) <= s + z <= (n + 1) * (2 ^ (k - 1) - 1)) by lia.
      assert (R : - 2 ^ (2 * k - 1) <= s + z < 2 ^ (2 * k - 1)). { rewrite P. split; [|]; nia. }
      rewrite to_s_id by lia. destruct (IH (Z.lor m z) (s + z) K F') as (m'&E&M). { exists (n + 1). lia. } exists m'. rewrite E. cbn [total fold_right nonneg forallb]. fold (total l) (nonneg l). split; [f_equal; lia|]. rewrite M.
      assert (Lo : (Z.lor m z <? 0) = (m <? 0) || (z <? 0)). { destruct (Z.ltb_spec (Z.lor m z) 0) as [A|A], (Z.ltb_spec m 0) as [B|B], (Z.ltb_spec z 0) as [C|C]; auto; cbn [orb]; exfalso. - assert (0 <= Z.lor m z) by (apply Z.lor_nonneg; lia). lia. - apply Z.lor_nonneg in A. lia. - apply Z.lor_nonneg in A. lia. - apply Z.lor_nonneg in A. lia. }
      rewrite Lo. destruct (Z.leb_spec 0 z), (Z.ltb_spec z 0), (m <? 0), (nonneg l); auto; lia. }
  intros m s K F M _ H. destruct (G l m s K F H) as (m'&E&E2). exists m'. split; auto. rewrite E2. destruct (Z.ltb_spec m 0); [lia|auto].
Qed.
Lemma Forall_firstn {A} (P : A -> Prop) n l : Forall P l -> Forall P (firstn n l). Proof. intros H. rewrite <- (firstn_skipn n l) in H. apply Forall_app in H. tauto. Qed.
Lemma Forall_skipn {A} (P : A -> Prop) n l : Forall P l -> Forall P (skipn n l). Proof. intros H. rewrite <- (firstn_skipn n l) in H. apply Forall_app in H. tauto. Qed.
Lemma blocks_ok k all : (k = 8 \/ k = 16) -> Forall (fun z => - 2 ^ (k - 1) <= z < 2 ^ (k - 1)) all -> forall fuel l pre m, all = pre ++ l -> nonneg pre = true -> total pre < 2 ^ 64 -> 0 <= m -> (length l < fuel)%nat -> usum_blocks fuel k l all m (total pre) = usum_spec (map Some all).
Proof.
  intros K F. induction fuel as [|f IH]; intros l pre m A P T M L; [lia|]. destruct l as [|z l]. { cbn [usum_blocks]. rewrite app_nil_r in A. subst. unfold usum_spec. rewrite natb_some, nats_some, P. destruct (Z.ltb_spec (total pre) (2 ^ 64)); [auto|lia]. }
  cbn [usum_blocks]. set (l0 := z :: l) in *. set (n := Z.to_nat (Z.min (2 ^ k) (Z.of_nat (length l0)))). assert (Fl : Forall (fun z => - 2 ^ (k - 1) <= z < 2 ^ (k - 1)) l0) by (rewrite A in F; apply Forall_app in F; tauto).
  assert (Pk : 1 <= 2 ^ k) by (destruct K; subst k; lia). assert (N : (1 <= n <= length l0)%nat) by (subst n l0; cbn [length]; lia).
  destruct (acc_ok k (firstn n l0) m 0) as (m'&E&Em); auto; [lia|apply Forall_firstn; auto| |]. { exists 0. rewrite firstn_length. split; [lia|]. split; [lia|]. subst n. lia. }
  rewrite E, Z.add_0_l. destruct (Z.ltb_spec m' 0).
  - apply generic_spec.
  - assert (Nn : nonneg (firstn n l0) = true) by (destruct (nonneg (firstn n l0)); auto; discriminate). pose proof (nonneg_total _ Nn) as T0.
    assert (Sm : total (firstn n l0) < 2 ^ (2 * k)). { assert (G : forall q, Forall (fun z => - 2 ^ (k - 1) <= z < 2 ^ (k - 1)) q -> total q <= Z.of_nat (length q) * (2 ^ (k - 1) - 1)) by (induction 1; cbn [total fold_right length]; [lia|fold (total l1); lia]). specialize (G _ (Forall_firstn _ n _ Fl)). rewrite firstn_length in G. destruct K; subst k; lia. }
    rewrite to_u_id by lia. rewrite <- total_app. destruct (Z.leb_spec (2 ^ 64) (total (pre ++ firstn n l0))).
    + unfold usum_spec. rewrite natb_some, nats_some. replace all with ((pre ++ firstn n l0) ++ skipn n l0) by (rewrite <- app_assoc, firstn_skipn; auto). rewrite nonneg_app, total_app. destruct (nonneg (skipn n l0)) eqn:Ns; [|rewrite andb_false_r; auto]. pose proof (nonneg_total _ Ns). destruct (Z.ltb_spec (total (pre ++ firstn n l0) + total (skipn n l0)) (2 ^ 64)); [lia|]. rewrite andb_false_r. auto.
    + apply IH; auto; try lia. * rewrite <- app_assoc, firstn_skipn. auto. * rewrite nonneg_app, P, Nn. auto. * rewrite skipn_length. lia.
Qed.
Lemma i32_ok all : forall l pre m, all = pre ++ l -> 0 <= total pre < 2 ^ 64 -> (m <? 0) = negb (nonneg pre) -> usum_i32 l all m (total pre) = usum_spec (map Some all).
Proof.
  induction l as [|z l IH]; intros pre m A T M; cbn [usum_i32].
  - rewrite app_nil_r in A. subst. rewrite generic_spec. unfold usum_spec. rewrite natb_some, nats_some, M. destruct (nonneg pre); cbn [negb andb]; auto. destruct (Z.ltb_spec (total pre) (2 ^ 64)); [auto|lia].
  - assert (Lo : (Z.lor m z <? 0) = negb (nonneg (pre ++ [z]))). { rewrite nonneg_app. cbn [nonneg forallb]. rewrite andb_true_r, negb_andb, <- M. destruct (Z.ltb_spec (Z.lor m z) 0) as [X|X], (Z.ltb_spec m 0) as [B|B], (Z.leb_spec 0 z) as [C|C]; auto; cbn [orb negb]; exfalso. - assert (0 <= Z.lor m z) by (apply Z.lor_nonneg; lia). lia. - apply Z.lor_nonneg in X. lia. - apply Z.lor_nonneg in X. lia. - apply Z.lor_nonneg in X. lia. }
    assert (Tz : total (pre ++ [z]) = total pre + z) by (rewrite total_app; cbn [total fold_right]; lia). assert (Aa : all = (pre ++ [z]) ++ l) by (rewrite <- app_assoc; auto).
    destruct ((total pre + z <? 0) || (2 ^ 64 <=? total pre + z)) eqn:O.
    + rewrite generic_spec. rewrite Lo. destruct (nonneg (pre ++ [z])) eqn:N; cbn [negb]; auto. unfold usum_spec. rewrite natb_some, nats_some, Aa, nonneg_app, total_app. rewrite N. pose proof (nonneg_total _ N). destruct (nonneg l) eqn:Nl; auto. pose proof (nonneg_total _ Nl). cbn [andb]. destruct (Z.ltb_spec (total (pre ++ [z]) + total l) (2 ^ 64)); auto. apply orb_true_iff in O. rewrite Z.ltb_lt, Z.leb_le in O. lia.
    + apply orb_false_iff in O. rewrite Z.ltb_ge, Z.leb_gt in O. rewrite <- Tz. apply IH; auto; lia.
Qed.
Lemma bits_total l : nats_of (map (fun b : bool => Some (if b then 1 else 0)) l) = map (fun b : bool => if b then 1 else 0) l /\ total (map (fun b : bool => if b then 1 else 0) l) = count_true l /\ forallb natb (map (fun b : bool => Some (if b then 1 else 0)) l) = true.
Proof. split; [unfold nats_of; rewrite map_map; auto|]. split; induction l as [|[] l IH]; cbn [map total fold_right count_true forallb natb]; unfold total in *; auto; lia. Qed.
Lemma count_le l : count_true l <= Z.of_nat (length l). Proof. induction l as [|[] l IH]; cbn [count_true length]; lia. Qed.
Theorem usum_ok c : cnts_ok c -> c_ia c < 2 ^ 64 -> usum c = usum_spec (counts c).
Proof.
  destruct c as [src n|k l|l]; cbn [cnts_ok usum counts c_ia].
  - intros (W&N) Lt. rewrite bit_sum_spec by (unfold len; lia). unfold usum_spec. destruct (bits_total (bits_of src 0 n)) as (E1&E2&E3). rewrite E1, E2, E3. pose proof (count_le (bits_of src 0 n)) as C. unfold bits_of in C at 2. rewrite map_length, seq_length in C. destruct (Z.ltb_spec (count_true (bits_of src 0 n)) (2 ^ 64)); [auto|lia].
  - intros (K&F) _. destruct (Z.leb_spec k 16). + apply (blocks_ok k l ltac:(lia) F (S (length l)) l [] 0); auto; [reflexivity|lia]. + apply (i32_ok l l [] 0); auto. cbn [total fold_right]. lia.
  - intros _ _. apply generic_spec.
Qed.

(** Indices *)
Lemma replicate_cons {A} c cs (x : A) xs : replicate (c :: cs) (x :: xs) = repeat x (Z.to_nat c) ++ replicate cs xs. Proof. reflexivity. Qed.
Fixpoint rep (f : Z -> Z) (cs : list Z) (i : Z) : list Z := match cs with [] => [] | c :: cs => repeat (f i) (Z.to_nat c) ++ rep f cs (i + 1) end.
Lemma rep_indices cs : indices cs = rep (fun i => i) cs 0.
Proof.
  unfold indices, iota. assert (G : forall cs k, replicate cs (map Z.of_nat (seq k (length cs))) = rep (fun i => i) cs (Z.of_nat k)). { induction cs0 as [|c cs0 IH]; intros k; auto. cbn [length seq map rep]. rewrite replicate_cons, IH. do 2 f_equal. lia. } apply (G cs 0%nat).
Qed.
Lemma rep_ext f g cs : forall i, (forall k, i <= k < i + Z.of_nat (length cs) -> f k = g k) -> rep f cs i = rep g cs i.
Proof. induction cs as [|c cs IH]; intros i H; auto. cbn [rep length] in *. rewrite H by lia. f_equal. apply IH. intros. apply H. lia. Qed.
Lemma rep_len f cs : forall i, nonneg cs = true -> len (rep f cs i) = total cs.
Proof. induction cs as [|c cs IH]; intros i H; auto. cbn [rep nonneg forallb] in *. apply andb_true_iff in H. destruct H as [H1 H2]. apply Z.leb_le in H1. unfold len in *. rewrite app_length, repeat_length. specialize (IH (i + 1) H2). cbn [total fold_right]. fold (total cs). lia. Qed.
Lemma put_ok n v : forall dst r, 0 <= r -> r + Z.of_nat n <= len dst -> exists d', put n v dst r = Ok (d', r + Z.of_nat n) /\ wrote dst r (repeat v n) d'.
Proof.
  induction n as [|n IH]; intros dst r R L; cbn [put]. - exists dst. split; [do 2 f_equal; lia|]. apply wrote_nil. lia.
  - destruct (wrote_one dst r v ltac:(lia)) as (d1&E1&W1). rewrite E1. cbn [bind]. destruct (IH d1 (r + 1)) as (d'&E&W); [lia|rewrite (wrote_len _ _ _ _ W1); lia|]. exists d'. rewrite E. split; [do 2 f_equal; lia|]. cbn [repeat]. change (v :: repeat v n) with ([v] ++ repeat v n). eapply wrote_app2; [|exact W1|exact W]. reflexivity.
Qed.
Lemma dense_ind_ok tr cs : forall i dst r, nonneg cs = true -> 0 <= r -> r + total cs <= len dst -> exists d', dense_ind tr cs i dst r = Ok d' /\ wrote dst r (rep tr cs i) d'.
Proof.
  induction cs as [|c cs IH]; intros i dst r N R L; cbn [dense_ind rep]. - exists dst. split; auto. apply wrote_nil. cbn [total fold_right] in L. lia.
  - cbn [nonneg forallb] in N. apply andb_true_iff in N. destruct N as [N1 N2]. apply Z.leb_le in N1. cbn [total fold_right] in L. fold (total cs) in L. pose proof (nonneg_total cs N2). destruct (put_ok (Z.to_nat c) (tr i) dst r R ltac:(lia)) as (d1&E1&W1). rewrite E1. cbn [bind]. destruct (IH (i + 1) d1 (r + Z.of_nat (Z.to_nat c)) N2) as (d'&E&W); [lia|rewrite (wrote_len _ _ _ _ W1); lia|]. exists d'. split; auto. eapply wrote_app2; [|exact W1|exact W]. unfold len. rewrite repeat_length. auto.
Qed.
Lemma slow_ind_dense umax tr l : forall i dst r, forallb natb l = true -> total (nats_of l) <= umax -> slow_ind umax tr l i dst r = dense_ind tr (nats_of l) i dst r.
Proof.
  induction l as [|[z|] l IH]; intros i dst r N T; auto; cbn [forallb natb] in N; [|discriminate]. apply andb_true_iff in N. destruct N as [N1 N2]. apply Z.leb_le in N1. pose proof (total_nonneg l N2) as T0. cbn [nats_of map total fold_right] in T. fold (nats_of l) (total (nats_of l)) in T. cbn [slow_ind nats_of map dense_ind o2s].
  destruct (Z.ltb_spec z 0); [lia|]. destruct (Z.ltb_spec umax z); [lia|]. cbn [orb bind]. destruct (put _ _ _ _) as [(d, r')| |]; cbn [bind]; auto. apply IH; auto. lia.
Qed.
Lemma trim_split l : exists k, l = trim l ++ repeat 0 k.
Proof.
  unfold trim. assert (G : forall q, exists k, q = repeat 0 k ++ trim_rev q). { induction q as [|z q IH]; [exists 0%nat; auto|]. destruct z; [|exists 0%nat; auto..]. destruct IH as (k&E). exists (S k). cbn [trim_rev repeat app]. f_equal. exact E. }
  destruct (G (rev l)) as (k&E). exists k. rewrite <- (rev_involutive l) at 1. rewrite E at 1. rewrite rev_app_distr. f_equal. clear. induction k as [|k IH]; auto. cbn [repeat rev]. rewrite IH. change [0] with (repeat 0 1). rewrite <- repeat_app. rewrite Nat.add_comm. reflexivity.
Qed.
Lemma rep_app f a b : forall i, rep f (a ++ b) i = rep f a i ++ rep f b (i + Z.of_nat (length a)).
Proof. induction a as [|c a IH]; intros i; cbn [app rep length]. - rewrite Z.add_0_r. auto. - rewrite IH, app_assoc. do 2 f_equal. lia. Qed.
Lemma rep_zeros f k : forall i, rep f (repeat 0 k) i = []. Proof. induction k as [|k IH]; intros i; auto. cbn [repeat rep]. rewrite IH. auto. Qed.
Lemma ons_rep src p n : ons (fun i => mbit src (64 * p + i)) 0 (Z.to_nat n) = indices (map (fun b : bool => if b then 1 else 0) (bits_of src p n)).
Proof.
  rewrite rep_indices. unfold bits_of. rewrite map_map. assert (G : forall m k, ons (fun i => mbit src (64 * p + i)) (Z.of_nat k) m = rep (fun i => i) (map (fun i => if mbit src (64 * p + Z.of_nat i) then 1 else 0) (seq k m)) (Z.of_nat k)).
  { induction m as [|m IH]; intros k. - rewrite ons_0. auto. - rewrite ons_S. cbn [seq map rep]. replace (Z.of_nat k + 1) with (Z.of_nat (S k)) by lia. rewrite IH. f_equal. destruct (mbit src (64 * p + Z.of_nat k)); auto. } apply (G (Z.to_nat n) 0%nat).
Qed.
