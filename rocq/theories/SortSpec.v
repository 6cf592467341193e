(** What sorting and grading mean. *)
From Verif Require Import Base.
From Coq Require Export Permutation Sorted.

(** [a] may come before [b] in ascending / descending order. *)
Definition before (up : bool) (a b : Z) : Prop := if up then a <= b else b <= a.
(** [r] has the values of [l], in order. *)
Definition sorting (up : bool) (l r : list Z) : Prop := Permutation l r /\ StronglySorted (before up) r.
(** [g] lists every index of [xs] exactly once, in the order of the values; equal values are in index order. *)
Definition grading {T : Type} (cmp : T -> T -> Z) (xs : list T) (g : list Z) : Prop :=
  Permutation (map Z.of_nat (seq 0 (length xs))) g /\
  StronglySorted (fun i j => forall a b, nth_error xs (Z.to_nat i) = Some a -> nth_error xs (Z.to_nat j) = Some b -> cmp a b < 0 \/ (cmp a b = 0 /\ i < j)) g.
(** Comparison of integers for the two directions. *)
Definition icmp (up : bool) (a b : Z) : Z := if up then a - b else b - a.
(** Values of signed [w]-bit integers. *)
Definition int_ok (w v : Z) : Prop := - 2 ^ (w - 1) <= v < 2 ^ (w - 1).
