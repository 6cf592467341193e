(** C44: results of •rand and of namespaces made by •MakeRand. *)
From Verif Require Import Base BitsModel BitsSpec BitsProof SqueezeModel WidenModel RandModel RandSpec RandProof RandProof2 RandProof3 RandProof4 RandProof5.
From Coq Require Import Permutation Sorting.Sorted.

Lemma flip_state u : 0 <= u < 2^64 -> state (flip u).
Proof.
  intros U. unfold state, flip. apply bits_range; [lia|]. intros i I. rewrite Z.lor_spec, Z.shiftr_spec, (range_bits u 64) by lia. unfold shl. cbn [orb]. apply (range_bits _ 64); [apply w64_range|lia|lia].
Qed.
Lemma call_ok c junk seed : state seed -> allowed c -> memory c junk -> exists a seed', do_call c junk seed = Ok (a, seed') /\ state seed' /\ good c a.
Proof.
  intros S A M. destruct c as [x|w x|x|w x|w x]; cbn [do_call allowed memory good] in *.
  - destruct (range1_ok x seed A S) as (v&s&E&Ss&V). rewrite E. cbn [bind]. eexists _, s. split; [reflexivity|]. split; auto.
  - destruct A as (F&Lw&X&P&D&K). destruct M as (Wj&Lj). unfold range_shape_c2. rewrite count_ok by auto. destruct (Z.leb_spec (2^32) (product w)); [lia|]. cbn [bind].
    assert (P0 : 0 <= product w). { clear - F. induction F; [cbn; lia|]. cbn [product fold_right]. fold (product l). nia. }
    destruct (range2_ok (product w) x seed junk ltac:(lia) X D K ltac:(split; [exact Wj|exact Lj]) S) as (l&s&E&Ss&L&V). rewrite E. cbn [bind]. destruct (Z.ltb_spec 255 (Z.of_nat (length w))); [lia|]. cbn [bind]. eexists _, s. split; [reflexivity|]. split; [exact Ss|]. split; [reflexivity|]. split; [lia|exact V].
  - destruct (deal_ok x junk seed A M S) as (l&s&E&Ss&P). rewrite E. cbn [bind]. eexists _, s. split; [reflexivity|]. split; auto.
  - destruct A as (A&X). destruct (deal2_ok w x junk seed A X M S) as (l&s&E&Ss&P). rewrite E. cbn [bind]. eexists _, s. split; [reflexivity|]. split; auto.
  - destruct A as (A&X). destruct (subset_ok w x seed A X S) as (l&s&E&Ss&P). rewrite E. cbn [bind]. eexists _, s. split; [reflexivity|]. split; auto.
Qed.

(** In every sequence of calls, from every starting number 𝕩 of •MakeRand (its 64 bits being u), all results are valid: numbers below the limit, a rearrangement of the naturals, different numbers, and ascending numbers. Partial: Range of one number for a limit above 2^53, and arrays of 2^32 bytes or more, are not included: see below *)
Theorem C44_session_partial u calls : 0 <= u < 2^64 -> Forall (fun cj => allowed (fst cj) /\ memory (fst cj) (snd cj)) calls ->
  exists answers, session u calls = Ok answers /\ Forall2 good (map fst calls) answers.
Proof.
  intros U F. revert u U. induction F as [|[c junk] calls (A&M) F IH]; intros u U; cbn [session map fst]; [exists []; split; [reflexivity|constructor]|]. cbn [fst snd] in *.
  destruct (call_ok c junk (flip u) (flip_state u U) A M) as (a&s&E&Ss&G). rewrite E. cbn [bind]. destruct (IH s Ss) as (l&El&Gl). rewrite El. cbn [bind]. exists (a :: l). split; [reflexivity|]. constructor; auto.
Qed.
Print Assumptions C44_session_partial.
(** Deal of any length below 2^31, for every state of the generator *)
Theorem C44_deal x seed junk : 0 <= x < 2^31 -> state seed -> Z.of_nat (length junk) = x -> exists l seed', deal_c1 x seed junk = Ok (l, seed') /\ Permutation l (naturals x).
Proof. intros X S J. destruct (deal_ok x junk seed X J S) as (l&s&E&_&P). eauto. Qed.
Print Assumptions C44_deal.
Theorem C44_deal_some w x seed junk : 0 <= w <= x -> x < 2^31 -> state seed -> Z.of_nat (length junk) = x -> exists l seed', deal_c2 w x seed junk = Ok (l, seed') /\ Z.of_nat (length l) = w /\ NoDup l /\ below x l.
Proof. intros W X S J. destruct (deal2_ok w x junk seed W X J S) as (l&s&E&_&P). exists l, s. split; [exact E|exact P]. Qed.
Print Assumptions C44_deal_some.
Theorem C44_subset w x seed : 0 <= w <= x -> x < 2^31 -> state seed -> exists l seed', subset_c2 w x seed = Ok (l, seed') /\ Z.of_nat (length l) = w /\ ascending l /\ below x l.
Proof. intros W X S. destruct (subset_ok w x seed W X S) as (l&s&E&_&P). exists l, s. split; [exact E|exact P]. Qed.
Print Assumptions C44_subset.

(** what is refused is refused for every state *)
Theorem C44_errors c seed junk : refused c -> do_call c junk seed = Err.
Proof.
  destruct c as [x|w x|x|w x|w x]; cbn [refused do_call].
  - intros H. unfold range_c1. destruct (Z.ltb_spec x 0); [reflexivity|lia].
  - intros (F&H). unfold range_shape_c2. rewrite count_ok by auto. destruct (Z.leb_spec (2^32) (product w)); [reflexivity|]. cbn [bind]. unfold range_c2. destruct (Z.leb_spec x 1).
    + destruct (Z.eqb_spec x 0); [lia|]. destruct (Z.eqb_spec x 1); [lia|]. reflexivity.
    + destruct (Z.ltb_spec (2^31) x); [|lia]. destruct (Z.leb_spec (2^53) x); [reflexivity|lia].
  - intros H. unfold deal_c1. destruct (Z.leb_spec x 1); [|lia]. destruct (Z.ltb_spec x 0); [reflexivity|lia].
  - intros H. unfold deal_c2. destruct (Z.ltb_spec x 0); [reflexivity|]. destruct (Z.ltb_spec w 0); [reflexivity|]. destruct (Z.eqb_spec w 0); [lia|]. destruct (Z.ltb_spec x w); [reflexivity|lia].
  - intros H. unfold subset_c2. destruct (Z.ltb_spec w 0); [reflexivity|]. destruct (Z.ltb_spec x 0); [reflexivity|]. destruct (Z.ltb_spec x w); [reflexivity|lia].
Qed.
Print Assumptions C44_errors.

(** a result of more than 255 axes is refused as well *)
Theorem C44_rank w x seed junk : state seed -> allowed (Range2 [product w] x) -> Forall (fun c => 0 <= c < 2^32) w -> (255 < length w)%nat -> memory (Range2 w x) junk -> do_call (Range2 w x) junk seed = Err.
Proof.
  intros S A F L (Wj&Lj). cbn [allowed product fold_right] in A. rewrite Z.mul_1_r in A. destruct A as (P0&_&X&P&D&K). apply Forall_inv in P0. cbn [do_call]. unfold range_shape_c2. rewrite count_ok by auto. destruct (Z.leb_spec (2^32) (product w)); [lia|]. cbn [bind].
  destruct (range2_ok (product w) x seed junk ltac:(lia) X D K ltac:(split; [exact Wj|exact Lj]) S) as (l&s&E&_). rewrite E. cbn [bind]. destruct (Z.ltb_spec 255 (Z.of_nat (length w))); [reflexivity|lia].
Qed.
Print Assumptions C44_rank.
Example rank_256 : memory (Range2 (repeat 1 256) 5) (repeat 0 2) /\ allowed (Range2 [product (repeat 1 256)] 5).
Proof.
  assert (E : product (repeat 1 256) = 1) by reflexivity. cbn [memory allowed]. rewrite E. split; [split; [repeat constructor; lia|vm_compute; discriminate]|]. split; [repeat constructor; lia|]. split; [cbn; lia|]. split; [lia|]. split; [cbn; lia|]. split; [intros [|]; lia|]. intros _ _. split; vm_compute; reflexivity.
Qed.

(** false for larger limits: after •MakeRand ¯1.0350497021170833e186 the first Range 2⋆60 gives 2⋆60, which is not less than 2⋆60 *)
Theorem C44_range_one_refuted : ~ forall u x v, 0 <= u < 2^64 -> 0 <= x < 2^63 -> session u [(Range1 x, [])] = Ok [Number v] -> valid x v.
Proof. intros H. specialize (H 0xe68e72f5788663c9 (2^60) (Whole (2^60)) ltac:(lia) ltac:(lia) ltac:(vm_compute; reflexivity)). destruct H as (_&H). lia. Qed.
Print Assumptions C44_range_one_refuted.

(** false for large counts: the size of the result is computed modulo 2^32, and no memory is allocated: (2⋆30) rand.Range 1000000 writes, and (¯1+2⋆32) rand.Range 2 reads outside of the allocated memory, for every state *)
Lemma nat_of z : 0 < z -> exists n, Z.to_nat z = S n. Proof. intros. exists (Z.to_nat (z - 1)). lia. Qed.
Theorem C44_range_size_refuted seed junk : range_c2 (2^30) 1000000 seed junk = UB /\ range_c2 (2^31) 200 seed junk = UB /\ range_c2 (2^32 - 1) 3 seed junk = UB /\ range_c2 (2^32 - 1) 2 seed junk = UB.
Proof.
  assert (L : forall am k max w, 0 < am -> w = 0 -> exists e, range_lanes k am max w junk seed = e /\ e = UB).
  { intros am k max w A ->. eexists. split; [reflexivity|]. unfold range_lanes. destruct (nat_of am A) as [n N]. rewrite N. cbn [for_ Z.to_nat firstn]. destruct (wyrand seed) as [r s]. unfold stbits. replace (0 * k / 64) with 0 by (rewrite Z.mul_0_l; reflexivity). reflexivity. }
  split; [|split; [|split]].
  - unfold range_c2. change (1000000 <=? 1) with false. change (2^31 <? 1000000) with false. cbn beta iota. change (range_type (2^30) 1000000) with (32, 2^29). cbn beta iota zeta. change (negb (Z.land 1000000 (1000000 - 1) =? 0)) with true. cbn iota. destruct (L (2^30) 32 1000000 (to_u 32 (2^29 * 8) / 8) ltac:(lia) eq_refl) as (e&E&U). rewrite E, U. reflexivity.
  - unfold range_c2. change (200 <=? 1) with false. change (2^31 <? 200) with false. cbn beta iota. change (range_type (2^31) 200) with (16, 2^29). cbn beta iota zeta. change (negb (Z.land 200 (200 - 1) =? 0)) with true. cbn iota. destruct (L (2^31) 16 200 (to_u 32 (2^29 * 8) / 8) ltac:(lia) eq_refl) as (e&E&U). rewrite E, U. reflexivity.
  - unfold range_c2. change (3 <=? 1) with false. change (2^31 <? 3) with false. cbn beta iota. change (range_type (2^32 - 1) 3) with (8, 0). cbn beta iota zeta. change (negb (Z.land 3 (3 - 1) =? 0)) with true. cbn iota. destruct (L (2^32 - 1) 8 3 (to_u 32 (0 * 8) / 8) ltac:(lia) eq_refl) as (e&E&U). rewrite E, U. reflexivity.
  - unfold range_c2. change (2 <=? 1) with false. change (2^31 <? 2) with false. cbn beta iota. change (range_type (2^32 - 1) 2) with (1, 0). cbn beta iota zeta. change (negb (Z.land 2 (2 - 1) =? 0)) with false. cbn iota. change (to_u 32 (0 * 8) / 8) with 0. unfold range_words. cbn [for_ Z.to_nat firstn bind]. unfold read_lanes. destruct (nat_of (2^32 - 1) ltac:(lia)) as [n N]. rewrite N. reflexivity.
Qed.
Print Assumptions C44_range_size_refuted.

(** the hypotheses are met, and results computed by the model *)
Example session_rand : exists l, session 0x4045000000000000 [(Range1 100, []); (Range2 [2; 3] 6, repeat 0 4); (Deal1 5, repeat 7 5); (Deal2 2 1000, repeat 0 1000); (Subset2 3 10, [])] = Ok l /\ length l = 5%nat.
Proof. eexists. split; [vm_compute; reflexivity|reflexivity]. Qed.
Example deal_5 : exists s, deal_c1 5 12345 [7; 7; 7; 7; 7] = Ok ([1; 4; 0; 2; 3], s). Proof. eexists. vm_compute. reflexivity. Qed.
Example allowed_rand : allowed (Range2 [2; 3] 6) /\ memory (Range2 [2; 3] 6) (repeat 0 4) /\ allowed (Deal1 600000) /\ allowed (Deal2 3 1000) /\ allowed (Subset2 3 1000) /\ allowed (Range1 (2^53)).
Proof.
  split; [|split; [|cbn [allowed]; lia]].
  - cbn [allowed]. split; [repeat constructor; lia|]. split; [cbn; lia|]. split; [lia|]. split; [cbn; lia|]. split; [intros [|]; lia|]. intros _ _. split; vm_compute; reflexivity.
  - cbn [memory]. split; [repeat constructor; lia|]. vm_compute. discriminate.
Qed.
