(** C39: the merge sort for generic values gives the stable ordering and stays within its run stack. *)
From Verif Require Import Base TagModel NumSpec ArrSpec DataSpec SqueezeModel CompareModel CompareSpec CompareProof CompareProof2 CompareThm
  TimsortModel TimsortSpec TimsortProof TimsortProof2.

(** For every comparison and every list that fits in memory the sort ends normally - within the array, its scratch storage and the 128
    places for pending runs - and gives the stable ordering. *)
Theorem C39_timsort_stable {A : Type} (cmp : A -> A -> Z) (ok : A -> Prop) (l : list A) :
  comparison cmp ok -> Forall ok l -> Z.of_nat (length l) < 2 ^ 63 -> exists r, tim_sort cmp l = Ok r /\ stable_sort_of cmp ok l r.
Proof. intros C. now apply tim_sort_ok. Qed.
Print Assumptions C39_timsort_stable.

(** The stable ordering is unique, so the theorem above says what the result is. *)
Theorem C39_stable_unique {A : Type} (cmp : A -> A -> Z) (ok : A -> Prop) (l r1 r2 : list A) :
  comparison cmp ok -> Forall ok l -> stable_sort_of cmp ok l r1 -> stable_sort_of cmp ok l r2 -> r1 = r2.
Proof.
  intros C F (P1&S1&K1) (P2&S2&K2).
  assert (F1 : Forall ok r1) by (apply (Permutation_Forall P1 F)). assert (F2 : Forall ok r2) by (apply (Permutation_Forall P2 F)).
  assert (K : forall k, ok k -> class cmp k r1 = class cmp k r2) by (intros k Hk; rewrite (K1 k Hk), (K2 k Hk); reflexivity).
  assert (P : Permutation r1 r2) by (apply Permutation_trans with l; [apply Permutation_sym|]; assumption).
  clear P1 P2 K1 K2 l F. revert r2 F2 S2 K P; induction r1 as [|x r1 IH]; intros r2 F2 S2 K P; [apply Permutation_nil in P; congruence|].
  destruct r2 as [|y r2]; [apply Permutation_sym, Permutation_nil in P; discriminate|].
  apply sorted_cons_iff in S1, S2. destruct S1 as [S1x S1]. destruct S2 as [S2y S2].
  pose proof (Forall_inv F1) as Ox. pose proof (Forall_inv F2) as Oy. cbn in Ox, Oy.
  assert (R : forall a, ok a -> cmp a a = 0) by (intros a Ha; pose proof (lt_gt cmp ok C a a Ha Ha); lia).
  assert (xy : cmp x y <= 0).
  { assert (I : In y (x :: r1)) by (apply Permutation_in with (y :: r2); [now apply Permutation_sym|cbn; auto]). destruct I as [<-|I]; [rewrite R; auto; lia|auto]. }
  assert (yx : cmp y x <= 0).
  { assert (I : In x (y :: r2)) by (apply Permutation_in with (x :: r1); [assumption|cbn; auto]). destruct I as [<-|I]; [rewrite R; auto; lia|auto]. }
  assert (E : cmp x y = 0) by (pose proof (lt_gt cmp ok C x y Ox Oy); pose proof (lt_gt cmp ok C y x Oy Ox); lia).
  pose proof (K x Ox) as Kx. unfold class in Kx. cbn [filter] in Kx. rewrite (R x Ox), E in Kx. cbn [Z.eqb] in Kx. injection Kx as <- Kx.
  f_equal. apply IH; auto; [apply (Forall_inv_tail F1)|apply (Forall_inv_tail F2)| |apply (Permutation_cons_inv P)].
  intros k Hk. specialize (K k Hk). unfold class in K |- *. cbn [filter] in K. destruct (cmp k x =? 0); [injection K as K; exact K|exact K].
Qed.
Print Assumptions C39_stable_unique.

(* sort.c:20-24, 90-93: the comparison of two values, ascending or descending *)
Definition gcmp (up : bool) (a b : gobj) : Z := match compare a b with Ok c => if up then c else - c | _ => 0 end.
Lemma gcmp_comparison up : comparison (gcmp up) plain_data.
Proof.
  assert (E : forall a b, gcmp up a b = if up then cmp a b else - cmp a b) by (intros a b; unfold gcmp, cmp; destruct (compare a b), up; reflexivity).
  split.
  - intros a b Ha Hb. apply plain_G in Ha, Hb. rewrite !E, (cmp_antisym a b Ha Hb). destruct up; lia.
  - intros a b c Ha Hb Hc. apply plain_G in Ha, Hb, Hc. rewrite !E. destruct up.
    + apply (cmp_trans _ a b c (le_n _) Ha Hb Hc).
    + intros H1 H2. assert (cmp c a <= 0); [|rewrite (cmp_antisym a c Ha Hc) in H; lia].
      apply (cmp_trans _ c b a (le_n _) Hc Hb Ha); [rewrite (cmp_antisym b c Hb Hc)|rewrite (cmp_antisym a b Ha Hb)]; lia.
Qed.
(** Boxed plain data: the stable ordering by the comparison of values. *)
Theorem C39_boxed_sort up (l : list gobj) : Forall plain_data l -> Z.of_nat (length l) < 2 ^ 63 ->
  exists r, tim_sort (gcmp up) l = Ok r /\ stable_sort_of (gcmp up) plain_data l r.
Proof. intros. apply tim_sort_ok; auto. apply gcmp_comparison. Qed.
Print Assumptions C39_boxed_sort.

(** Hypotheses are met, with a list long enough for several runs and merges; equal keys keep their order. *)
Definition key_cmp (a b : Z * nat) : Z := fst a - fst b.
Example C39_example_comparison : comparison key_cmp (fun _ => True).
Proof. unfold comparison, key_cmp. split; intros; lia. Qed.
Definition ex_in : list (Z * nat) := map (fun i => ((Z.of_nat i * Z.of_nat i * 7 + 3) mod 61, i)) (seq 0 300).
Fixpoint in_order (l : list (Z * nat)) : bool :=
  match l with
  | a :: (b :: _) as t => ((fst a <? fst b) || ((fst a =? fst b) && (snd a <? snd b)%nat)) && in_order t
  | _ => true
  end.
Example C39_example_sort : match tim_sort key_cmp ex_in with Ok r => in_order r && (length r =? 300)%nat && negb (in_order ex_in) | _ => false end = true.
Proof. vm_compute. reflexivity. Qed.
Example C39_example_boxed : Forall plain_data [ex_list; GAtom (of_int 3); ex_list2].
Proof. destruct C15_example_plain. apply Forall_cons; [assumption|]. apply Forall_cons; [apply plain_G, of_int_G; lia|]. apply Forall_cons; [assumption|constructor]. Qed.
