(** Bits of a memory made of 64-bit words, numbered from the lowest bit of word 0. *)
From Verif Require Import Base.

Definition words (m : list Z) : Prop := Forall (fun w => 0 <= w < 2 ^ 64) m.
Definition mbit (m : list Z) (k : Z) : bool := Z.testbit (nth (Z.to_nat (k / 64)) m 0) (k mod 64).
(** the n booleans of the array at word p *)
Definition bits_of (m : list Z) (p n : Z) : list bool := map (fun i => mbit m (64 * p + Z.of_nat i)) (seq 0 (Z.to_nat n)).

Fixpoint count_true (l : list bool) : Z := match l with [] => 0 | b :: l => (if b then 1 else 0) + count_true l end.
(** position of the first v, or the length *)
Fixpoint first_index (v : bool) (l : list bool) : Z := match l with [] => 0 | b :: l => if Bool.eqb b v then 0 else 1 + first_index v l end.
Definition ordered (down : bool) (l : list bool) : Prop :=
  forall i j a b, (i < j)%nat -> nth_error l i = Some a -> nth_error l j = Some b -> if down then (a = false -> b = false) else (a = true -> b = true).
