From Verif Require Import Base BitsModel SqueezeModel SqueezeProof ReuseModel TransSpec FnsModel FnsSpec FnsProof FnsProof2 FnsProof3 FnsProof7.
From Coq Require Import List.
Open Scope nat_scope.
Lemma nth_skipn {A} (l : list A) d : forall n i, nth i (skipn n l) d = nth (n + i) l d.
Proof. induction l as [|a l IH]; intros [|n] i; cbn [skipn Nat.add nth]; auto; destruct i; reflexivity. Qed.
Lemma nth_firstn {A} (l : list A) d : forall n i, i < n -> nth i (firstn n l) d = nth i l d.
Proof. induction l as [|a l IH]; intros [|n] [|i] H; cbn [firstn nth]; try lia; auto. apply IH; lia. Qed.
Lemma rows_ok wbit w c : (Z.of_nat (places c (length w)) < 2 ^ 32)%Z -> forall n x, length x = n * c ->
  find_rows n wbit w x c = Ok (flat_map (fun i => map (fun j => mt x w (i * c + j)) (seq 0 (places c (length w)))) (seq 0 n)).
Proof.
  intros B. induction n as [|n IH]; intros x L; [reflexivity|]. cbn [find_rows]. assert (LF : length (firstn c x) = c) by (rewrite firstn_length; lia).
  rewrite find_list_ok by (rewrite LF; exact B). cbn [bind]. rewrite IH by (rewrite skipn_length; lia). cbn [bind]. rewrite LF. f_equal.
  cbn [seq flat_map]. f_equal.
  - apply map_ext_in. intros j J. apply in_seq in J. unfold places in J. unfold mt, mp. cbn [Nat.mul Nat.add].
    assert (forall l, (forall t, In t l -> t < length w) -> forallb (fun t => veq (nth (j + t) (firstn c x) d0) (nth t w d0)) l = forallb (fun t => veq (nth (j + t) x d0) (nth t w d0)) l) as E.
    { induction l as [|t l IHl]; intros H; [reflexivity|]. cbn [forallb]. rewrite IHl by (intros; apply H; right; assumption). rewrite nth_firstn by (specialize (H t (or_introl eq_refl)); lia). reflexivity. }
    apply E. intros t T. apply in_seq in T. lia.
  - rewrite (seq_shift_add 1), !flat_map_concat_map, map_map. f_equal. apply map_ext. intros i. apply map_ext. intros j. unfold mt, mp.
    generalize (seq 0 (length w)). induction l as [|t l IHl]; [reflexivity|]. cbn [forallb]. rewrite IHl, nth_skipn. do 3 f_equal. lia.
Qed.
Lemma found_rows w x lead c : array (lead ++ [c]) x -> found [length w] w (lead ++ [c]) x (flat_map (fun i => map (fun j => mt x w (i * c + j)) (seq 0 (places c (length w)))) (seq 0 (size lead))) /\
  find_shape [length w] (lead ++ [c]) = lead ++ [places c (length w)].
Proof.
  intros AX. assert (FSH : find_shape [length w] (lead ++ [c]) = lead ++ [places c (length w)]).
  { unfold find_shape. rewrite app_length. cbn [length]. replace (length lead + 1 - 1) with (length lead) by lia. rewrite firstn_app_l by reflexivity. rewrite skipn_app, skipn_all, Nat.sub_diag. reflexivity. }
  split; [|exact FSH]. unfold found. rewrite FSH. set (rl := places c (length w)). unfold array in AX. rewrite size_app' in AX. change (size [c]) with (c * 1) in AX.
  assert (LEN : forall n s, length (flat_map (fun i => map (fun j => mt x w (i * c + j)) (seq 0 rl)) (seq s n)) = n * rl).
  { induction n as [|n IH]; intros s; [reflexivity|]. cbn [seq flat_map]. rewrite app_length, IH, map_length, seq_length. lia. }
  split; [unfold array; rewrite LEN, size_app'; cbn [size fold_right]; lia|].
  intros I J LI HI. rewrite app_length in LI. cbn [length] in LI. apply Forall2_app_inv_l in HI. destruct HI as (I1 & J1 & H1 & H2 & E). pose proof (inb_len' _ _ H1) as L1.
  assert (I = I1 /\ J = J1) as [<- <-]. { apply (f_equal (firstn (length lead))) in E as E1. rewrite !firstn_app_l in E1 by lia. subst I1. split; [reflexivity|]. apply app_inv_head in E. exact E. }
  inversion H2 as [|? j ? ? Hj H3]; subst. inversion H3; subst. pose proof (ravel_lt' _ _ H1) as RL.
  exists (mt x w (ravel lead I * c + j)). split.
  - unfold elt. rewrite ravel_app2 by exact L1. cbn [ravel]. change (size [rl]) with (rl * 1). change (size []) with 1.
    replace (ravel lead I * (rl * 1) + (j * 1 + 0)) with (ravel lead I * rl + j) by lia.
    rewrite (nth_flat _ rl); [|intros; rewrite map_length, seq_length; reflexivity|exact RL|exact Hj]. cbn [Nat.add]. rewrite nth_error_map, (nth_error_nth' _ 0) by (rewrite seq_length; exact Hj). rewrite seq_nth by exact Hj. reflexivity.
  - unfold rl, places in Hj. assert (RC : S (ravel lead I) * c <= size lead * c) by (apply Nat.mul_le_mono_r; lia). cbn [Nat.mul] in RC. rewrite mt_iff by lia. split.
    + intros H K HK. inversion HK as [|? t ? ? Ht HK']; subst. inversion HK'; subst. cbn [plus]. unfold elt. rewrite ravel_app2 by exact L1. cbn [ravel]. change (size [c]) with (c * 1). change (size []) with 1.
      replace (t * 1 + 0) with t by lia. specialize (H t Ht). rewrite <- H. f_equal. lia.
    + intros H t T. specialize (H [t] ltac:(constructor; [exact T|constructor])). cbn [plus] in H. unfold elt in H. rewrite ravel_app2 in H by exact L1. cbn [ravel] in H. change (size [c]) with (c * 1) in H. change (size []) with 1 in H.
      replace (t * 1 + 0) with t in H by lia. rewrite <- H. f_equal. lia.
Qed.
Lemma found_scalar x v xsh : array xsh x -> find_shape [] xsh = xsh /\ found [] [v] xsh x (map (fun j => veq (nth (0 + j) x d0) v) (seq 0 (length x))).
Proof.
  intros AX. assert (E : find_shape [] xsh = xsh). { unfold find_shape. cbn [length]. rewrite Nat.sub_0_r, firstn_all, skipn_all. cbn [combine map]. apply app_nil_r. }
  split; [exact E|]. unfold found. rewrite E. split; [unfold array; rewrite map_length, seq_length; exact AX|]. intros I J LI HI. cbn [length] in LI.
  pose proof (inb_len' _ _ HI) as L. rewrite app_length in L. assert (J = []) by (destruct J; [reflexivity|cbn [length] in L; lia]). subst J. rewrite app_nil_r in *. pose proof (ravel_lt' _ _ HI) as RL. unfold array in AX. rewrite <- AX in RL.
  exists (veq (nth (ravel xsh I) x d0) v). split.
  - unfold elt. rewrite nth_error_map, (nth_error_nth' _ 0) by (rewrite seq_length; exact RL). rewrite seq_nth by exact RL. reflexivity.
  - rewrite veq_eq. split.
    + intros H K HK. inversion HK; subst. cbn [plus]. rewrite app_nil_r. unfold elt. cbn [ravel nth_error]. rewrite (nth_error_nth' _ d0) by exact RL. reflexivity.
    + intros H. specialize (H [] ltac:(constructor)). cbn [plus] in H. rewrite app_nil_r in H. unfold elt in H. cbn [ravel nth_error] in H. rewrite (nth_error_nth' _ d0) in H by exact RL. congruence.
Qed.
Definition pls (tail wsh : list nat) : list nat := map (fun '(h, m) => places h m) (combine tail wsh).
Lemma lead_ok : forall l ia, match empty_lead (Z.of_nat ia) (map Z.of_nat l) with Ok r => r = Z.of_nat (ia * size l) | Err => exists n, (2 ^ 32 <= Z.of_nat (ia * size (firstn n l)))%Z | UB => False end.
Proof.
  induction l as [|c l IH]; intros ia; cbn [map empty_lead]; [change (size []) with 1; f_equal; lia|]. rewrite <- Nat2Z.inj_mul. destruct (Z.leb_spec (2 ^ 32) (Z.of_nat (ia * c))) as [G|G].
  - exists 1. cbn [firstn]. rewrite size_cons. change (size []) with 1. rewrite Nat.mul_1_r. exact G.
  - specialize (IH (ia * c)). destruct (empty_lead (Z.of_nat (ia * c)) (map Z.of_nat l)); [rewrite size_cons; lia| |exact IH]. destruct IH as [n H]. exists (S n). cbn [firstn]. rewrite size_cons. replace (ia * (c * size (firstn n l))) with (ia * c * size (firstn n l)) by lia. exact H.
Qed.
Lemma tail_ok : forall wsh tail ia, length tail = length wsh -> Forall (fun l => (Z.of_nat l < 2 ^ 32)%Z) (pls tail wsh) ->
  match empty_tail (Z.of_nat ia) (map Z.of_nat wsh) (map Z.of_nat tail) with Ok (t, r) => t = map Z.of_nat (pls tail wsh) /\ r = Z.of_nat (ia * size (pls tail wsh)) | Err => exists n, (2 ^ 32 <= Z.of_nat (ia * size (firstn n (pls tail wsh))))%Z | UB => False end.
Proof.
  induction wsh as [|m wsh IH]; intros [|h tail] ia L B; cbn [length] in L; try lia; cbn [map empty_tail].
  - split; [reflexivity|]. change (size (pls [] [])) with 1. f_equal; lia.
  - change (pls (h :: tail) (m :: wsh)) with (places h m :: pls tail wsh) in *. pose proof (Forall_inv B) as B0. cbv beta in B0. pose proof (Forall_inv_tail B) as BT.
    destruct (Z.ltb_spec (Z.of_nat h) (Z.of_nat m)) as [LT|GE].
    + assert (P0 : places h m = 0) by (unfold places; lia). rewrite P0. specialize (IH tail 0 ltac:(lia) BT). change (Z.of_nat 0) with 0%Z in IH. destruct (empty_tail 0 (map Z.of_nat wsh) (map Z.of_nat tail)) as [[t r]| |]; cbn [bind].
      * destruct IH as [-> ->]. split; [reflexivity|]. rewrite size_cons. f_equal. lia.
      * destruct IH as [n H]. lia.
      * exact IH.
    + assert (PC : to_u 32 (Z.of_nat h + 1 - Z.of_nat m) = Z.of_nat (places h m)) by (unfold places in *; rewrite to_u_id; lia). cbv zeta. rewrite PC. assert (PN : places h m <> 0) by (unfold places; lia).
      replace (Z.of_nat (places h m) =? 0)%Z with false by lia. cbn [orb]. rewrite <- Nat2Z.inj_mul. destruct (Z.leb_spec (2 ^ 32) (Z.of_nat (ia * places h m))) as [G|G].
      * exists 1. cbn [firstn]. rewrite size_cons. change (size []) with 1. rewrite Nat.mul_1_r. exact G.
      * specialize (IH tail (ia * places h m) ltac:(lia) BT). destruct (empty_tail (Z.of_nat (ia * places h m)) (map Z.of_nat wsh) (map Z.of_nat tail)) as [[t r]| |]; cbn [bind].
        -- destruct IH as [-> ->]. split; [reflexivity|]. rewrite size_cons. f_equal. lia.
        -- destruct IH as [n H]. exists (S n). cbn [firstn]. rewrite size_cons, Nat.mul_assoc. exact H.
        -- exact IH.
Qed.
Lemma found_ones {A} wsh (w : list A) xsh x : length wsh <= length xsh -> array xsh x -> (size (find_shape wsh xsh) <> 0 -> size wsh = 0) -> found wsh w xsh x (repeat true (size (find_shape wsh xsh))).
Proof.
  intros L AX H. split; [apply repeat_length|]. intros I J LI HI. pose proof (ravel_lt' _ _ HI) as RL. exists true. split.
  - unfold elt. rewrite (nth_error_nth' _ true) by (rewrite repeat_length; exact RL). f_equal. clear. set (n := size _). generalize (ravel (find_shape wsh xsh) (I ++ J)). induction n as [|n IH]; intros [|i]; cbn [repeat nth]; auto.
  - split; [|reflexivity]. intros _ K HK. apply ravel_lt' in HK. specialize (H ltac:(lia)). lia.
Qed.
Lemma pls_size : forall t wsh, length t = length wsh -> size t = 0 -> size (pls t wsh) <> 0 -> size wsh = 0.
Proof.
  induction t as [|h t IH]; intros [|m wsh] LT S F; cbn [length] in LT; try lia. change (pls (h :: t) (m :: wsh)) with (places h m :: pls t wsh) in F. rewrite size_cons in *.
  apply Nat.mul_eq_0 in S. destruct S as [->|S].
  - assert (places 0 m <> 0) by (intros Q; rewrite Q in F; lia). unfold places in H. replace m with 0 by lia. reflexivity.
  - rewrite (IH wsh); [lia|lia|exact S|]. intros Q. rewrite Q in F. lia.
Qed.
Lemma empty_size wsh xsh : length wsh <= length xsh -> size xsh = 0 -> size (find_shape wsh xsh) <> 0 -> size wsh = 0.
Proof.
  intros L S F. unfold find_shape in F. set (d := length xsh - length wsh) in *. cbv zeta in F. rewrite <- (firstn_skipn d xsh), size_app' in S. rewrite size_app' in F. apply Nat.mul_eq_0 in S. destruct S as [S|S]; [rewrite S in F; lia|].
  apply (pls_size (skipn d xsh)); [rewrite skipn_length; lia|exact S|]. intros Q. unfold pls in Q. rewrite Q in F. lia.
Qed.
Lemma empty_ok wsh xsh : wsh <> [] -> length wsh <= length xsh -> (length xsh = 1 -> size xsh = 0) -> Forall (fun l => (Z.of_nat l < 2 ^ 32)%Z) (find_shape wsh xsh) ->
  match find_empty (Z.of_nat (size wsh)) (map Z.of_nat wsh) (map Z.of_nat xsh) with
  | Ok (rsh, r) => rsh = map Z.of_nat (find_shape wsh xsh) /\ r = repeat true (size (find_shape wsh xsh))
  | Err => exists n, (2 ^ 32 <= Z.of_nat (size (firstn n (find_shape wsh xsh))))%Z
  | UB => False
  end.
Proof.
  intros NE L H1 B. unfold find_empty. rewrite !map_length. destruct (Nat.ltb_spec 1 (length xsh)) as [G|G].
  - unfold find_shape in *. set (d := length xsh - length wsh) in *. cbv zeta in *. fold (pls (skipn d xsh) wsh) in *. rewrite firstn_map, skipn_map. apply Forall_app in B. destruct B as [_ B].
    pose proof (lead_ok (firstn d xsh) 1) as LD. change (Z.of_nat 1) with 1%Z in LD. destruct (empty_lead 1 (map Z.of_nat (firstn d xsh))) as [ia| |]; cbn [bind]; [|destruct LD as [n H]; exists (Nat.min n (length (firstn d xsh)))|exact LD].
    + subst ia. rewrite Nat.mul_1_l. pose proof (tail_ok wsh (skipn d xsh) (size (firstn d xsh)) ltac:(rewrite skipn_length; lia) B) as TL.
      destruct (empty_tail _ _ _) as [[t r]| |]; cbn [bind]; [|destruct TL as [n H]; exists (length (firstn d xsh) + n)|exact TL].
      * destruct TL as [-> ->]. rewrite map_app, size_app', Nat2Z.id. split; reflexivity.
      * rewrite firstn_app_2, size_app'. exact H.
    + rewrite firstn_app. replace (Nat.min n (length (firstn d xsh)) - length (firstn d xsh)) with 0 by lia. cbn [firstn]. rewrite app_nil_r. rewrite Nat.mul_1_l in H.
      replace (firstn (Nat.min n (length (firstn d xsh))) (firstn d xsh)) with (firstn n (firstn d xsh)); [exact H|]. generalize (firstn d xsh). intros l. clear. revert n. induction l as [|a l IH]; intros [|n]; cbn [firstn length Nat.min]; auto. rewrite IH. reflexivity.
  - assert (LW : length wsh = 1 /\ length xsh = 1) by (destruct wsh; [congruence|cbn [length] in *; lia]). destruct LW as [LW LX]. destruct wsh as [|m [|? ?]]; cbn [length] in LW; try lia. destruct xsh as [|h [|? ?]]; cbn [length] in LX; try lia.
    specialize (H1 eq_refl). cbn [size fold_right] in *. assert (h = 0) by lia. subst h. unfold find_shape, places. cbn [length Nat.sub firstn skipn combine map app]. replace (Z.of_nat (m * 1)) with (Z.of_nat m) by lia.
    destruct (Z.eqb_spec (Z.of_nat m) 0) as [Z0|Z0].
    + assert (m = 0) by lia. subst m. split; reflexivity.
    + replace (0 + 1 - m) with 0 by lia. split; reflexivity.
Qed.
Lemma find_ok wk wsh w xk xsh x : array wsh w -> array xsh x -> (wk = KAtom -> wsh = []) -> (xk = KAtom -> xsh = []) -> Forall (fun l => (Z.of_nat l < 2 ^ 32)%Z) (find_shape wsh xsh) ->
  match FnsModel.find wk (map Z.of_nat wsh) w xk (map Z.of_nat xsh) x with
  | Ok (Some (rsh, r)) => length wsh <= length xsh /\ rsh = map Z.of_nat (find_shape wsh xsh) /\ found wsh w xsh x r
  | Ok None => wsh <> [] /\ x <> [] /\ ~ (typed xk = true /\ typed wk = true /\ (length xsh = 1 \/ length wsh = 1 /\ length xsh = 2))
  | Err => length xsh < length wsh \/ exists n, (2 ^ 32 <= Z.of_nat (size (firstn n (find_shape wsh xsh))))%Z
  | UB => False
  end.
Proof.
  intros AW AX KW KX B. unfold FnsModel.find. rewrite !map_length. destruct (Nat.ltb_spec (length xsh) (length wsh)) as [LT|GE]; [left; exact LT|].
  destruct (Nat.eq_dec (length wsh) 0) as [W0|W0].
  - assert (wsh = []) by (destruct wsh; [reflexivity|discriminate]). subst wsh. unfold array in AW. cbn [size fold_right] in AW. destruct w as [|v [|? ?]]; cbn [length] in AW; try lia. cbn [length Nat.eqb].
    assert (E : (do v0 <- rd [v] 0; do r <- cmp_as x 0 v0 (length x); Ok (Some (map Z.of_nat xsh, r))) = Ok (Some (map Z.of_nat xsh, map (fun j => veq (nth (0 + j) x d0) v) (seq 0 (length x))))) by (cbn [rd nth_error bind]; rewrite cmp_ok by lia; reflexivity).
    destruct (found_scalar x v xsh AX) as [ES F]. destruct ((length xsh =? 1) && typed xk && (is_atom wk || typed wk)); rewrite E; rewrite ES; split; [lia|auto|lia|auto].
  - assert (WN : wsh <> []) by (intros ->; cbn in W0; lia). replace (length wsh =? 0) with false by lia.
    assert (NA : is_atom wk = false) by (destruct wk; try reflexivity; rewrite (KW eq_refl) in W0; cbn in W0; lia). rewrite NA. cbn [orb].
    destruct ((length xsh =? 1) && typed xk && typed wk) eqn:C1.
    + apply andb_true_iff in C1. destruct C1 as [C1 C3]. apply andb_true_iff in C1. destruct C1 as [C1 C2]. apply Nat.eqb_eq in C1. destruct wsh as [|m [|? ?]]; cbn [length] in *; try lia. destruct xsh as [|h [|? ?]]; cbn [length] in C1; try lia.
      unfold array in AW, AX. cbn [size fold_right] in AW, AX. rewrite Nat.mul_1_r in AW, AX. subst m h.
      destruct (found_rows w x [] (length x)) as [F FS]; [unfold array; cbn [app size fold_right]; lia|]. cbn [app] in F, FS. rewrite FS in *. pose proof (Forall_inv B) as B0. cbv beta in B0.
      rewrite find_list_ok by exact B0. cbn [bind]. split; [lia|]. split; [rewrite map_length, seq_length; reflexivity|]. cbn [size fold_right seq flat_map] in F. rewrite app_nil_r in F. exact F.
    + destruct (Nat.eqb_spec (length x) 0) as [X0|X0].
      * unfold array in AX, AW. rewrite X0 in AX. rewrite AW. pose proof (empty_ok wsh xsh WN GE (fun _ => eq_sym AX) B) as EO. destruct (find_empty _ _ _) as [[rsh r]| |]; cbn [bind]; [|right; exact EO|exact EO].
        destruct EO as [-> ->]. split; [exact GE|]. split; [reflexivity|]. apply found_ones; [exact GE|unfold array; lia|]. apply empty_size; auto.
      * destruct ((length wsh =? 1) && (length xsh =? 2)) eqn:C2.
        -- apply andb_true_iff in C2. destruct C2 as [C2 C3]. apply Nat.eqb_eq in C2, C3. destruct wsh as [|m [|? ?]]; cbn [length] in C2; try lia. destruct xsh as [|n [|c [|? ?]]]; cbn [length] in C3; try lia.
           unfold array in AW. cbn [size fold_right] in AW. rewrite Nat.mul_1_r in AW. subst m. cbn [map rd nth_error bind].
           destruct (found_rows w x [n] c AX) as [F FS]. cbn [app] in F, FS. assert (BP : (Z.of_nat (places c (length w)) < 2 ^ 32)%Z) by (rewrite FS in B; pose proof (Forall_inv (Forall_inv_tail B)) as Q; exact Q).
           destruct (Z.ltb_spec (Z.of_nat c) (Z.of_nat (length w))) as [LT|GE2].
           ++ pose proof (empty_ok [length w] [n; c] ltac:(discriminate) ltac:(cbn; lia) ltac:(cbn; lia) B) as EO. cbn [size fold_right map] in EO. rewrite Nat.mul_1_r in EO. destruct (find_empty _ _ _) as [[rsh r]| |]; cbn [bind]; [|right; exact EO|exact EO].
              destruct EO as [-> ->]. split; [cbn; lia|]. split; [reflexivity|]. apply found_ones; [cbn; lia|exact AX|]. rewrite FS. intros Q. exfalso. apply Q. cbn [size fold_right]. unfold places. replace (c + 1 - length w) with 0 by lia. lia.
           ++ destruct (typed xk && typed wk) eqn:C4.
              ** assert (RLE : (if (Z.of_nat (length w) =? 0)%Z then to_u 32 (Z.of_nat c + 1) else (Z.of_nat c - Z.of_nat (length w) + 1)%Z) = Z.of_nat (places c (length w))).
                 { unfold places in *. destruct (Z.eqb_spec (Z.of_nat (length w)) 0) as [Q|Q]; [rewrite to_u_id; lia|lia]. }
                 cbv zeta. rewrite RLE. destruct (Z.leb_spec (2 ^ 32) (Z.of_nat n * Z.of_nat (places c (length w)))) as [G|G].
                 { right. exists 2. rewrite FS. cbn [firstn size fold_right]. lia. }
                 unfold array in AX. cbn [size fold_right] in AX. rewrite !Nat2Z.id. rewrite (rows_ok (is_bits wk) w c BP n x) by lia. cbn [bind]. split; [cbn; lia|]. rewrite FS. split; [reflexivity|].
                 cbn [size fold_right] in F. rewrite Nat.mul_1_r in F. exact F.
              ** split; [discriminate|]. split; [intros ->; cbn in X0; lia|]. intros (T1 & T2 & _). rewrite T1, T2 in C4. discriminate.
        -- split; [exact WN|]. split; [intros ->; cbn in X0; lia|]. intros (T1 & T2 & T3). rewrite T1, T2 in C1. destruct T3 as [T3|[T3 T4]]; [rewrite T3 in C1; discriminate|rewrite T3, T4 in C2; discriminate].
Qed.
