(** Facts about shifts, masks and disjoint ors on Z. *)
From Verif Require Import Base.

Lemma lor_disjoint v t k : 0 <= k -> 0 <= v < 2^k -> Z.lor v (t * 2^k) = v + t * 2^k.
Proof.
  intros Hk Hv. rewrite Z.add_nocarry_lxor, Z.lxor_lor; [reflexivity| |].
  all: apply Z.bits_inj'; intros n Hn; rewrite Z.land_spec, Z.bits_0;
    destruct (Z.lt_ge_cases n k); [rewrite Z.mul_pow2_bits_low by lia; apply andb_false_r|];
    replace v with (v mod 2^k) by (apply Z.mod_small; lia); rewrite Z.mod_pow2_bits_high by lia; reflexivity.
Qed.
Lemma lor_disjoint' v t k : 0 <= k -> 0 <= v < 2^k -> Z.lor (t * 2^k) v = t * 2^k + v.
Proof. intros. rewrite Z.lor_comm, lor_disjoint by assumption. lia. Qed.

Lemma land_ones_mod k x : 0 <= k -> Z.land (2^k - 1) x = x mod 2^k.
Proof. intros. rewrite Z.land_comm. replace (2^k-1) with (Z.ones k) by (rewrite Z.ones_equiv; lia). apply Z.land_ones. lia. Qed.

Lemma fold_left_app_flat_map {A B} (f : A -> list B) l acc :
  fold_left (fun p c => p ++ f c) l acc = acc ++ flat_map f l.
Proof.
  revert acc; induction l as [|a l IH]; intros acc; cbn; [symmetry; apply app_nil_r|].
  rewrite IH, app_assoc. reflexivity.
Qed.
Lemma fold_left_sum_app {A} (f : A -> Z) l acc :
  fold_left (fun p c => p + f c) l acc = acc + fold_left (fun p c => p + f c) l 0.
Proof.
  revert acc; induction l as [|a l IH]; intros acc; cbn; [lia|]. rewrite (IH (acc + f a)), (IH (f a)). lia.
Qed.
