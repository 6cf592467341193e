From Verif Require Import Base SqueezeModel TransSpec JoinModel JoinSpec JoinProof JoinProof2.
Open Scope Z_scope.
Section J.
Context {A : Type}.
Notation arr := (list nat * list A)%type.

(** ** Merge *)
Lemma same_shape (s csh : list nat) : (length s =? length csh)%nat && forallb (fun p => (fst p =? snd p)%nat) (combine csh s) = true <-> s = csh.
Proof.
  rewrite andb_true_iff, Nat.eqb_eq, forallb_forall. split; [|intros ->; split; [reflexivity|]].
  - revert csh. induction s as [|a s IH]; intros [|b csh] [L F]; cbn [length combine] in *; try lia; [reflexivity|].
    assert (E : (b =? a)%nat = true) by (apply (F (b, a)); left; reflexivity). apply Nat.eqb_eq in E. subst b. f_equal. apply IH. split; [lia|].
    intros p Hp. apply F. right; exact Hp.
  - induction csh as [|b csh IH]; intros p Hp; cbn [combine] in Hp; [destruct Hp|]. destruct Hp as [<-|Hp]; [cbn; apply Nat.eqb_refl|apply IH; exact Hp].
Qed.
Lemma concat_len s (xs : list arr) : Forall valid_arr xs -> Forall (fun a => fst a = s) xs -> length (concat (map snd xs)) = (length xs * size s)%nat.
Proof.
  intros V F. induction xs as [|a xs IH]; [reflexivity|]. inversion V as [|? ? V1 V2]; subst. inversion F as [|? ? F1 F2]; subst.
  cbn [map concat length]. rewrite app_length, IH by assumption. unfold valid_arr, array in V1. rewrite V1. lia.
Qed.
Lemma apd_sh_ok s cap : forall (xs : list arr) pos, Forall valid_arr xs -> Forall (fun a => fst a = s) xs ->
  pos + Z.of_nat (length xs) * Z.of_nat (size s) = cap -> apd_sh s cap pos xs = Ok (concat (map snd xs)).
Proof.
  induction xs as [|a xs IH]; intros pos V F H; cbn [apd_sh length map concat] in *.
  - rewrite (proj2 (Z.eqb_eq pos cap)) by lia. reflexivity.
  - inversion V as [|? ? V1 V2]; subst. inversion F as [|? ? F1 F2]; subst. rewrite (proj2 (same_shape (fst a) (fst a)) eq_refl).
    unfold valid_arr, array in V1. rewrite V1. rewrite (proj2 (Z.ltb_ge _ _)) by lia. rewrite IH by (assumption || lia). reflexivity.
Qed.
Lemma apd_sh_err s cap : forall (xs : list arr) pos, Forall valid_arr xs -> Exists (fun a => fst a <> s) xs ->
  pos + Z.of_nat (length xs) * Z.of_nat (size s) <= cap -> apd_sh s cap pos xs = Err.
Proof.
  induction xs as [|a xs IH]; intros pos V E H; cbn [apd_sh length] in *; [inversion E|].
  inversion V as [|? ? V1 V2]; subst. destruct ((length (fst a) =? length s)%nat && _) eqn:T; [|reflexivity].
  apply same_shape in T. subst s. inversion E as [? ? E1|? ? E1]; subst; [congruence|].
  unfold valid_arr, array in V1. rewrite V1. rewrite (proj2 (Z.ltb_ge _ _)) by lia. rewrite IH by (assumption || lia). reflexivity.
Qed.
Lemma size_app s t : size (s ++ t) = (size s * size t)%nat.
Proof. induction s as [|a s IH]; cbn [app size fold_right]; [fold (size t); lia|]. fold (size (s ++ t)) (size s). rewrite IH. lia. Qed.
Lemma size_one s : size s = 1%nat -> map (fun _ => 1%nat) s = s.
Proof.
  induction s as [|a s IH]; intros H; [reflexivity|]. cbn [size fold_right] in H. fold (size s) in H. apply Nat.eq_mul_1 in H. destruct H as [-> H].
  cbn [map]. rewrite IH by exact H. reflexivity.
Qed.
Lemma ravel_app' s t I J : length I = length s -> ravel (s ++ t) (I ++ J) = (ravel s I * size t + ravel t J)%nat.
Proof.
  revert I. induction s as [|a s IH]; intros [|i I] L; cbn [length] in L; try lia; [reflexivity|]. cbn [app ravel].
  rewrite IH by lia. rewrite size_app. lia.
Qed.
Lemma nth_blocks m (ls : list (list A)) : Forall (fun l => length l = m) ls -> forall k j l, nth_error ls k = Some l -> (j < m)%nat ->
  nth_error (concat ls) (k * m + j) = nth_error l j.
Proof.
  induction 1 as [|a ls H _ IH]; intros k j l N J; [destruct k; discriminate|]. destruct k as [|k]; cbn [nth_error concat] in *.
  - injection N as <-. rewrite nth_error_app1 by lia. reflexivity.
  - rewrite nth_error_app2 by lia. replace (S k * m + j - length a)%nat with (k * m + j)%nat by lia. apply IH; assumption.
Qed.
Lemma concat_merged osh (xs : list arr) s : array osh xs -> Forall valid_arr xs -> Forall (fun a => fst a = s) xs -> merged osh xs s (osh ++ s, concat (map snd xs)).
Proof.
  intros AO V F. split; [reflexivity|]. split.
  - unfold valid_arr, array in *. cbn [fst snd]. rewrite (concat_len s) by assumption. rewrite size_app. lia.
  - intros I J a HI HJ E. cbn [fst snd]. unfold elt in *. rewrite ravel_app' by (clear -HI; induction HI; cbn [length]; lia).
    apply (nth_blocks (size s) (map snd xs)).
    + apply Forall_map. rewrite Forall_forall in *. intros b Hb. rewrite (V b Hb : length (snd b) = _), (F b Hb). reflexivity.
    + rewrite nth_error_map, E. reflexivity.
    + apply ravel_lt. exact HJ.
Qed.
Lemma all_or_not (s : list nat) (xs : list arr) : Forall (fun a => fst a = s) xs \/ Exists (fun a => fst a <> s) xs.
Proof.
  induction xs as [|a xs [IH|IH]]; [left; constructor| |right; apply Exists_cons_tl, IH].
  destruct (list_eq_dec Nat.eq_dec (fst a) s); [left; constructor; assumption|right; apply Exists_cons_hd; assumption].
Qed.
Theorem merge_ok amax osh (xs : list arr) s : array osh xs -> xs <> [] -> Forall valid_arr xs -> Forall (fun a => fst a = s) xs ->
  (length osh + length s <= 255)%nat -> Z.of_nat (length xs) < 2 ^ 32 -> Z.of_nat (length xs) * Z.of_nat (size s) <= amax -> amax < 2 ^ 32 ->
  merge amax osh xs = Ok (osh ++ s, concat (map snd xs)).
Proof.
  intros AO NE V F R LX AM A32. unfold merge. destruct xs as [|x xs]; [congruence|]. pose proof (Forall_inv F) as Fx. cbn beta in Fx.
  pose proof (Forall_inv V) as Vx. unfold valid_arr, array in Vx.
  destruct xs as [|y ys].
  - rewrite Fx. rewrite (proj2 (Z.ltb_ge _ _)) by lia. cbn [map concat]. rewrite app_nil_r.
    rewrite size_one by (symmetry; exact AO). reflexivity.
  - set (L := x :: y :: ys) in *. rewrite Fx, Vx, Fx. rewrite (proj2 (Z.ltb_ge 255 _)) by lia. rewrite andb_false_r.
    rewrite shProd32_eq. unfold array in AO. rewrite <- AO.
    replace (to_u 32 (Z.of_nat (length L))) with (Z.of_nat (length L)) by (unfold to_u; rewrite Z.mod_small; lia).
    rewrite (proj2 (Z.leb_gt (2 ^ 32) (Z.of_nat (length L) * Z.of_nat (size s)))) by lia. rewrite andb_false_r.
    assert (CAP : (if (0 <? length s)%nat then Z.of_nat (length L) * Z.of_nat (size s) else Z.of_nat (length L)) = Z.of_nat (length L) * Z.of_nat (size s)).
    { destruct (Nat.ltb_spec 0 (length s)); [reflexivity|]. destruct s; [|cbn [length] in *; lia]. change (size []) with 1%nat. lia. }
    rewrite CAP. rewrite (proj2 (Z.ltb_ge amax _)) by lia. rewrite (apd_sh_ok s _ L 0) by (assumption || lia). reflexivity.
Qed.
Theorem merge_big amax osh (xs : list arr) s : array osh xs -> (2 <= length xs)%nat -> Forall valid_arr xs -> Forall (fun a => fst a = s) xs ->
  Z.of_nat (length xs) < 2 ^ 32 -> amax < 2 ^ 32 -> amax < Z.of_nat (length xs) * Z.of_nat (size s) -> merge amax osh xs = Err.
Proof.
  intros AO NE V F LX A32 BIG. unfold merge. destruct xs as [|x [|y ys]]; cbn [length] in NE; try lia. pose proof (Forall_inv F) as Fx. cbn beta in Fx.
  pose proof (Forall_inv V) as Vx. unfold valid_arr, array in Vx.
  set (L := x :: y :: ys) in *. rewrite Fx, Vx, Fx. destruct ((0 <? length s)%nat && _) eqn:T1; [reflexivity|].
  rewrite shProd32_eq. unfold array in AO. rewrite <- AO.
  replace (to_u 32 (Z.of_nat (length L))) with (Z.of_nat (length L)) by (unfold to_u; rewrite Z.mod_small; lia).
  destruct ((0 <? length s)%nat && (2 ^ 32 <=? _)) eqn:T2; [reflexivity|].
  assert (CAP : (if (0 <? length s)%nat then Z.of_nat (length L) * Z.of_nat (size s) else Z.of_nat (length L)) = Z.of_nat (length L) * Z.of_nat (size s)).
  { destruct (Nat.ltb_spec 0 (length s)); [reflexivity|]. destruct s; [|cbn [length] in *; lia]. change (size []) with 1%nat. lia. }
  rewrite CAP. rewrite (proj2 (Z.ltb_lt amax _)) by lia. reflexivity.
Qed.
Theorem merge_err amax osh (xs : list arr) : array osh xs -> xs <> [] -> Forall valid_arr xs -> Z.of_nat (length xs) < 2 ^ 32 -> (length osh <= 255)%nat ->
  (forall s, Forall (fun a => fst a = s) xs -> (255 < length osh + length s)%nat) -> merge amax osh xs = Err.
Proof.
  intros AO NE V LX RO H. unfold merge. destruct xs as [|x xs]; [congruence|]. destruct xs as [|y ys].
  - specialize (H (fst x) ltac:(repeat constructor)). rewrite (proj2 (Z.ltb_lt _ _)) by lia. reflexivity.
  - set (L := x :: y :: ys) in *. pose proof (Forall_inv V) as Vx. unfold valid_arr, array in Vx.
    destruct ((0 <? length (fst x))%nat && (255 <? _)) eqn:T1; [reflexivity|].
    destruct (all_or_not (fst x) L) as [F|E].
    { specialize (H _ F). destruct (Nat.ltb_spec 0 (length (fst x))) as [P|P]; [|lia]. cbn [andb] in T1. lia. }
    rewrite shProd32_eq, Vx. unfold array in AO. rewrite <- AO.
    replace (to_u 32 (Z.of_nat (length L))) with (Z.of_nat (length L)) by (unfold to_u; rewrite Z.mod_small; lia).
    destruct ((0 <? length (fst x))%nat && (2 ^ 32 <=? _)) eqn:T2; [reflexivity|].
    assert (CAP : (if (0 <? length (fst x))%nat then Z.of_nat (length L) * Z.of_nat (size (fst x)) else Z.of_nat (length L)) = Z.of_nat (length L) * Z.of_nat (size (fst x))).
    { destruct (Nat.ltb_spec 0 (length (fst x))); [reflexivity|]. destruct (fst x); [|cbn [length] in *; lia]. change (size []) with 1%nat. lia. }
    rewrite CAP. destruct (amax <? _); [reflexivity|]. rewrite (apd_sh_err (fst x) _ L 0) by (assumption || lia). reflexivity.
Qed.
End J.
