(** C34, C38: Join, Join To, Merge, First and Pick. *)
From Verif Require Import Base SqueezeModel TransSpec JoinModel JoinSpec JoinProof JoinProof2 JoinProof3 JoinProof4 JoinProof5.
Open Scope Z_scope.

Lemma nat_of z : 0 <= z -> exists n, Z.of_nat n = z.
Proof. intros H. exists (Z.to_nat z). lia. Qed.
(** what is assumed of the items of a list: as many elements as their shapes say, and ranks up to 255, or below 255 when the first is an
    atom (see [C34_join_rank_refuted]) *)
Definition items_ok {A} (xs : list (list nat * list A)) : Prop :=
  Forall valid_arr xs /\ (forall a, In a xs -> (length (fst a) <= 255)%nat) /\
  forall x0 l, xs = x0 :: l -> fst x0 = [] -> forall a, In a l -> (length (fst a) < 255)%nat.

(** ∾𝕩 of a list of arrays: when all of them are cells of one shape or lists of cells of that shape, the result has these cells one after
    another; when its size does not fit, an error; otherwise an error *)
Theorem C34_join_list : forall (A : Type) (amax : Z) (x0 : list nat * list A) xs, items_ok (x0 :: xs) -> amax < 2 ^ 32 ->
  (forall t, joinable t (x0 :: xs) -> Z.of_nat (count t (x0 :: xs)) < 2 ^ 32 -> Z.of_nat (count t (x0 :: xs)) * Z.of_nat (size t) <= amax ->
     exists r, join_list amax x0 xs = Ok r /\ joined t (x0 :: xs) r) /\
  ((forall t, ~ joinable t (x0 :: xs)) -> join_list amax x0 xs = Err).
Proof.
  intros A amax x0 xs (V & R & R') AM. specialize (R' x0 xs eq_refl). split.
  - intros t JB C1 C2. exists (count t (x0 :: xs) :: t, concat (map snd (x0 :: xs))). split; [|apply concat_joined; [exact V|apply JB]].
    pose proof (join_list_ok amax x0 xs t V R R' JB C1) as J. unfold Zcap in J. rewrite J by lia. rewrite (proj2 (Z.ltb_ge _ _)) by lia. reflexivity.
  - intros NJ. apply join_list_err; assumption.
Qed.
Print Assumptions C34_join_list.
Example C34_join_list_ex : let xs := [([2; 3]%nat, [1; 2; 3; 4; 5; 6]); ([3]%nat, [7; 8; 9]); ([0; 3]%nat, []); ([1; 3]%nat, [10; 11; 12])] in
  items_ok xs /\ joinable [3%nat] xs /\ join_list 1000 (hd ([], []) xs) (tl xs) = Ok ([4; 3]%nat, [1; 2; 3; 4; 5; 6; 7; 8; 9; 10; 11; 12]).
Proof.
  split; [|split; [|vm_compute; reflexivity]].
  - split; [repeat constructor|]. split; [|intros x0 l E F; injection E as E _; subst x0; discriminate].
    intros a H. repeat (destruct H as [<-|H]; [cbn; lia|]). destruct H.
  - split; [|apply Exists_cons_hd; exists 2%nat; reflexivity].
    constructor; [right; exists 2%nat; reflexivity|]. constructor; [left; reflexivity|]. constructor; [right; exists 0%nat; reflexivity|].
    constructor; [right; exists 1%nat; reflexivity|constructor].
Qed.
Example C34_join_list_ex_err : join_list 1000 ([2; 3]%nat, [1; 2; 3; 4; 5; 6]) [([2]%nat, [7; 8])] = Err /\ join_list 1000 ([], [5]) [([], [6])] = Err.
Proof. split; vm_compute; reflexivity. Qed.

(** an atom followed by an array of rank 255 is not an error: the difference of the ranks is calculated modulo 256, and a null pointer is read *)
Theorem C34_join_rank_refuted : exists x0 x1 : list nat * list nat, items_ok [x1; x0] /\ (forall t, ~ joinable t [x0; x1]) /\
  forall amax, join_list amax x0 [x1] = UB.
Proof.
  exists ([], [0%nat]), (repeat 1%nat 255, [0%nat]). split; [|split].
  - split; [repeat constructor|]. split; [|intros x l E F; injection E as E _; subst x; discriminate]. intros a [<-|[<-|[]]]; cbn [fst]; [rewrite repeat_length|cbn [length]]; lia.
  - intros t [F _]. pose proof (fits_len _ _ (Forall_inv F)) as F1. pose proof (fits_len _ _ (Forall_inv (Forall_inv_tail F))) as F3.
    cbn [fst] in F1, F3. change (length (repeat 1%nat 255)) with 255%nat in F3. cbn [length] in F1. lia.
  - intros amax. reflexivity.
Qed.
Print Assumptions C34_join_rank_refuted.

(** 𝕨∾𝕩. Two atoms give a list of two elements; otherwise as for the list of both *)
Theorem C34_join_to : forall (A : Type) (amax : Z) (w x : list nat * list A), valid_arr w -> valid_arr x -> amax < 2 ^ 32 ->
  (fst w = [] -> fst x = [] -> join_to amax w x = Ok ([2%nat], snd w ++ snd x)) /\
  (forall t, joinable t [w; x] -> Z.of_nat (count t [w; x]) < 2 ^ 32 -> Z.of_nat (count t [w; x]) * Z.of_nat (size t) <= amax ->
     exists r, join_to amax w x = Ok r /\ joined t [w; x] r) /\
  ((fst w <> [] \/ fst x <> []) -> (forall t, ~ joinable t [w; x]) -> join_to amax w x = Err).
Proof.
  intros A amax w x Vw Vx AM. split; [|split].
  - intros E1 E2. unfold join_to. rewrite E1, E2. reflexivity.
  - intros t JB C1 C2.
    assert (NE : fst w <> [] \/ fst x <> []).
    { destruct JB as [_ E]. apply Exists_exists in E. destruct E as (a & Ia & l & Ea). destruct Ia as [<-|[<-|[]]]; rewrite Ea; [left|right]; discriminate. }
    destruct (join_to_cases amax w x Vw Vx NE) as [(t' & J' & E)|[NJ _]]; [|destruct (NJ t JB)].
    assert (t' = t) by (eapply joinable_unique; eauto). subst t'. unfold Zcap in E. rewrite (proj2 (Z.ltb_ge _ _)) in E by lia.
    assert (Q : (if (length t =? 0)%nat then count t [w; x] else Z.to_nat (to_u 32 (Z.of_nat (count t [w; x])))) = count t [w; x]).
    { destruct (length t =? 0)%nat; [reflexivity|]. unfold to_u. rewrite Z.mod_small by lia. apply Nat2Z.id. }
    rewrite Q in E. eexists. split; [exact E|]. apply concat_joined; [repeat constructor; assumption|apply JB].
  - intros NE NJ. destruct (join_to_cases amax w x Vw Vx NE) as [(t' & J' & E)|[_ E]]; [destruct (NJ t' J')|exact E].
Qed.
Print Assumptions C34_join_to.
Example C34_join_to_ex : let w := ([2]%nat, [1; 2]) in let x := ([2; 2]%nat, [3; 4; 5; 6]) in
  joinable [2%nat] [w; x] /\ join_to 100 w x = Ok ([3; 2]%nat, [1; 2; 3; 4; 5; 6]) /\ join_to 100 x x = Ok ([4; 2]%nat, [3; 4; 5; 6; 3; 4; 5; 6]) /\
  join_to 100 ([3]%nat, [1; 2; 3]) x = Err /\ join_to 100 ([], [1]) x = Err /\ join_to 100 ([], [1]) w = Ok ([3]%nat, [1; 1; 2]).
Proof.
  split; [|repeat split; vm_compute; reflexivity]. split; [constructor; [left; reflexivity|constructor; [right; exists 2%nat; reflexivity|constructor]]|].
  apply Exists_cons_tl, Exists_cons_hd. exists 2%nat. reflexivity.
Qed.
(** the length of a result without elements is cut to 32 bits: ((2⋆31)‿0⥊0)∾(2⋆31)‿0⥊0 has shape 0‿0 *)
Theorem C34_join_to_length_refuted : exists (w x : list nat * list nat) t r, valid_arr w /\ valid_arr x /\ joinable t [w; x] /\
  join_to 1000 w x = Ok r /\ Z.of_nat (count t [w; x]) = 2 ^ 32 /\ fst r = [0; 0]%nat.
Proof.
  destruct (nat_of (2 ^ 31)) as [n N]; [lia|].
  exists ([n; 0%nat], []), ([n; 0%nat], []), [0%nat], ([0; 0]%nat, []).
  assert (V : valid_arr ([n; 0%nat], @nil nat)) by (unfold valid_arr, array; cbn [fst snd length size fold_right]; lia).
  assert (J : joinable [0%nat] [([n; 0%nat], @nil nat); ([n; 0%nat], [])]).
  { split; [|apply Exists_cons_hd; exists n; reflexivity]. constructor; [right; exists n; reflexivity|constructor; [right; exists n; reflexivity|constructor]]. }
  assert (C : Z.of_nat (count [0%nat] [([n; 0%nat], @nil nat); ([n; 0%nat], [])]) = 2 ^ 32).
  { unfold count, ncells. cbn [fold_right fst length Nat.eqb hd]. lia. }
  repeat split; auto; try apply J.
  destruct (join_to_cases 1000 ([n; 0%nat], @nil nat) ([n; 0%nat], []) V V ltac:(left; discriminate)) as [(t & J' & E)|[NJ _]]; [|destruct (NJ _ J)].
  assert (t = [0%nat]) by (eapply joinable_unique; eauto). subst t. unfold Zcap in E. rewrite C in E. exact E.
Qed.
Print Assumptions C34_join_to_length_refuted.

(** >𝕩: one shape s for all elements, else an error *)
Theorem C34_merge : forall (A : Type) (amax : Z) osh (xs : list (list nat * list A)), array osh xs -> xs <> [] -> Forall valid_arr xs ->
  Z.of_nat (length xs) < 2 ^ 32 -> (length osh <= 255)%nat -> amax < 2 ^ 32 ->
  (forall s, Forall (fun a => fst a = s) xs -> (length osh + length s <= 255)%nat -> Z.of_nat (length xs) * Z.of_nat (size s) <= amax ->
     exists r, merge amax osh xs = Ok r /\ merged osh xs s r) /\
  ((forall s, Forall (fun a => fst a = s) xs -> (255 < length osh + length s)%nat) -> merge amax osh xs = Err).
Proof.
  intros A amax osh xs AO NE V LX RO AM. split.
  - intros s F R B. exists (osh ++ s, concat (map snd xs)). split; [apply merge_ok; assumption|apply concat_merged; assumption].
  - intros H. apply merge_err; assumption.
Qed.
Print Assumptions C34_merge.
Example C34_merge_ex : merge 100 [2; 2]%nat [([3]%nat, [1; 2; 3]); ([3]%nat, [4; 5; 6]); ([3]%nat, [7; 8; 9]); ([3]%nat, [10; 11; 12])] =
    Ok ([2; 2; 3]%nat, [1; 2; 3; 4; 5; 6; 7; 8; 9; 10; 11; 12]) /\
  merge 100 [2]%nat [([3]%nat, [1; 2; 3]); ([1; 3]%nat, [4; 5; 6])] = Err /\ merge 100 [1; 1]%nat [([2]%nat, [1; 2])] = Ok ([1; 1; 2]%nat, [1; 2]).
Proof. repeat split; vm_compute; reflexivity. Qed.

(** ⊑𝕩: the element at index 0, 0, ...; an error if there are no elements *)
Theorem C34_first : forall (A : Type) (x : list nat * list A), valid_arr x ->
  (forall a, elt (fst x) (snd x) (map (fun _ => 0%nat) (fst x)) = Some a -> first x = Ok a) /\ (size (fst x) = 0%nat -> first x = Err).
Proof.
  intros A [sh l] V. unfold valid_arr, array in V. cbn [fst snd] in *. split.
  - intros a E. unfold elt in E. assert (R : ravel sh (map (fun _ => 0%nat) sh) = 0%nat).
    { clear. induction sh as [|n sh IH]; [reflexivity|]. cbn [map ravel]. rewrite IH. lia. }
    rewrite R in E. unfold first. cbn [snd]. destruct l; [discriminate|]. cbn [nth_error] in E. congruence.
  - intros E. rewrite E in V. unfold first. cbn [snd]. destruct l; [reflexivity|discriminate].
Qed.
Print Assumptions C34_first.
Example C34_first_ex : first ([2; 2]%nat, [5; 6; 7; 8]) = Ok 5 /\ first ([2; 0]%nat, @nil Z) = Err.
Proof. split; reflexivity. Qed.

(** 𝕨⊑𝕩: exactly what [picks] says, and an error exactly when it says nothing *)
Theorem C34_pick : forall (A : Type) (w : pw) (x : list nat * list A), valid_arr x -> Forall (fun l => Z.of_nat l < 2 ^ 32) (fst x) ->
  Z.of_nat (length (snd x)) < 2 ^ 32 -> wf_pw w ->
  (forall r, pick w x = Ok r <-> picks x w r) /\ ((forall r, ~ picks x w r) <-> pick w x = Err).
Proof.
  intros A w x V F S W. pose proof (pick_ok x V F S w W) as P. destruct (pick w x) as [v| |].
  - split; [intros r; rewrite P; split; congruence|]. split; [intros N; destruct (N v); apply P; reflexivity|discriminate].
  - split; [intros r; split; [discriminate|intros Q; destruct (P r Q)]|]. split; auto.
  - destruct P.
Qed.
Print Assumptions C34_pick.
Example C34_pick_ex : let x := ([2; 3]%nat, [10; 11; 12; 13; 14; 15]) in let n z := PNum (Some z) in
  let w := PArr TGen [2]%nat [PArr TNum [2]%nat [n 1; n (-1)]; PArr TGen [1]%nat [PArr TGen [2]%nat [n 0; n 1]]] in
  wf_pw w /\ pick w x = Ok (RArr [2]%nat [RElt 15; RArr [1]%nat [RElt 11]]) /\ pick (PArr TNum [2]%nat [n 2; n 0]) x = Err /\
  pick (PArr TNum [1]%nat [n 0]) x = Err /\ pick (n (-2)) ([3]%nat, [7; 8; 9]) = Ok (RElt 8) /\ pick (PArr TNum [0]%nat []) ([], [7]) = Ok (RElt 7).
Proof. split; [|repeat split; vm_compute; reflexivity]. repeat (constructor; try discriminate; try reflexivity). Qed.
(** with a 𝕨 of shape 0‿2 the result depends on how 𝕨 is stored: an error if as 8-bit numbers, the element of 𝕩 if as bits *)
Theorem C34_pick_storage_refuted : exists sh (x : list nat * list nat) a, valid_arr x /\ size sh = 0%nat /\
  pick (PArr TNum sh []) x = Err /\ pick (PArr TGen sh []) x = Ok (RElt a).
Proof. exists [0; 2]%nat, ([], [7%nat]), 7%nat. repeat split; reflexivity. Qed.
Print Assumptions C34_pick_storage_refuted.

(** ** sizes *)
(** a size that does not fit memory is an error as long as it fits 32 bits; for 𝕨∾𝕩 and >𝕩 always *)
Theorem C38_join_sizes : forall (A : Type) (amax : Z), 0 <= amax < 2 ^ 32 ->
  (forall (x0 : list nat * list A) xs t, items_ok (x0 :: xs) -> joinable t (x0 :: xs) -> Z.of_nat (count t (x0 :: xs)) < 2 ^ 32 ->
     amax < Z.of_nat (count t (x0 :: xs)) * Z.of_nat (size t) < 2 ^ 32 -> join_list amax x0 xs = Err) /\
  (forall (w x : list nat * list A) t, valid_arr w -> valid_arr x -> joinable t [w; x] ->
     amax < Z.of_nat (count t [w; x]) * Z.of_nat (size t) -> join_to amax w x = Err) /\
  (forall osh (xs : list (list nat * list A)) s, array osh xs -> (2 <= length xs)%nat -> Forall valid_arr xs -> Forall (fun a => fst a = s) xs ->
     Z.of_nat (length xs) < 2 ^ 32 -> amax < Z.of_nat (length xs) * Z.of_nat (size s) -> merge amax osh xs = Err).
Proof.
  intros A amax AM. split; [|split].
  - intros x0 xs t (V & R & R') JB C1 C2. specialize (R' x0 xs eq_refl). rewrite (join_list_ok amax x0 xs t V R R' JB C1) by (unfold Zcap; lia).
    unfold Zcap. rewrite (proj2 (Z.ltb_lt _ _)) by lia. reflexivity.
  - intros w x t Vw Vx JB B.
    assert (NE : fst w <> [] \/ fst x <> []).
    { destruct JB as [_ E]. apply Exists_exists in E. destruct E as (a & Ia & l & Ea). destruct Ia as [<-|[<-|[]]]; rewrite Ea; [left|right]; discriminate. }
    destruct (join_to_cases amax w x Vw Vx NE) as [(t' & J' & E)|[NJ _]]; [|destruct (NJ t JB)].
    assert (t' = t) by (eapply joinable_unique; eauto). subst t'. unfold Zcap in E. rewrite (proj2 (Z.ltb_lt _ _)) in E by lia. exact E.
  - intros osh xs s AO L2 V F LX B. apply (merge_big amax osh xs s); auto; lia.
Qed.
Print Assumptions C38_join_sizes.
Example C38_join_sizes_ex : join_list 5 ([3]%nat, [1; 2; 3]) [([3]%nat, [4; 5; 6])] = Err /\ join_to 5 ([3]%nat, [1; 2; 3]) ([3]%nat, [4; 5; 6]) = Err /\
  merge 5 [2]%nat [([3]%nat, [1; 2; 3]); ([3]%nat, [4; 5; 6])] = Err.
Proof. repeat split; vm_compute; reflexivity. Qed.
(** ∾256⥊<(2⋆24)⥊0: the length of the result, 2^32, is 0 in 32 bits; nothing is allocated, and writing starts outside of the allocation *)
Theorem C38_join_refuted : exists (x0 : list nat * list nat) xs t, items_ok (x0 :: xs) /\ joinable t (x0 :: xs) /\
  Z.of_nat (count t (x0 :: xs)) * Z.of_nat (size t) = 2 ^ 32 /\ forall amax, 0 <= amax -> join_list amax x0 xs = UB.
Proof.
  destruct (nat_of (2 ^ 24)) as [n N]; [lia|].
  set (x0 := ([n], repeat 0%nat n)). exists x0, (repeat x0 255), [].
  assert (AL : forall a, In a (x0 :: repeat x0 255) -> a = x0) by (intros a [->|H]; [reflexivity|exact (repeat_spec _ _ _ H)]).
  assert (V : valid_arr x0) by (unfold valid_arr, array, x0; cbn [fst snd size fold_right]; rewrite repeat_length; lia).
  assert (OK : items_ok (x0 :: repeat x0 255)).
  { split; [apply Forall_forall; intros a Ha; rewrite (AL a Ha); exact V|]. split.
    - intros a Ha. rewrite (AL a Ha). cbn [x0 fst length]. lia.
    - intros y l EQ F. injection EQ as EQ _. subst y. discriminate. }
  assert (JB : joinable [] (x0 :: repeat x0 255)).
  { split; [apply Forall_forall; intros a Ha; rewrite (AL a Ha); right; exists n; reflexivity|apply Exists_cons_hd; exists n; reflexivity]. }
  assert (CT : Z.of_nat (count [] (x0 :: repeat x0 255)) * Z.of_nat (size []) = 2 ^ 32).
  { change (size []) with 1%nat. assert (G : forall k, count [] (repeat x0 k) = (k * n)%nat).
    { induction k as [|k IH]; [reflexivity|]. cbn [repeat count fold_right]. unfold count in IH. rewrite IH. unfold ncells, x0. cbn [fst length Nat.eqb hd]. lia. }
    cbn [count fold_right]. fold (count [] (repeat x0 255)). rewrite G. unfold ncells, x0. cbn [fst length Nat.eqb hd]. lia. }
  split; [exact OK|]. split; [exact JB|]. split; [exact CT|]. intros amax AM. destruct OK as (_ & R & R').
  apply (join_list_wrap amax x0 (repeat x0 255) [] R (R' _ _ eq_refl) JB AM).
  - unfold Zcap. rewrite CT. exists 1. lia.
  - unfold x0. cbn [snd]. destruct n; [lia|discriminate].
Qed.
Print Assumptions C38_join_refuted.
