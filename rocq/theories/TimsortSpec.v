(** What a stable sort is. *)
From Verif Require Import Base.
From Coq Require Export Permutation Sorted.

Section Spec.
Context {A : Type} (cmp : A -> A -> Z) (ok : A -> Prop).
(** [cmp] is a comparison on the values that satisfy [ok]: negative, zero or positive, consistently, and transitive. *)
Definition comparison : Prop :=
  (forall a b, ok a -> ok b -> (cmp a b < 0 <-> 0 < cmp b a)) /\
  (forall a b c, ok a -> ok b -> ok c -> cmp a b <= 0 -> cmp b c <= 0 -> cmp a c <= 0).
Definition sorted (l : list A) : Prop := StronglySorted (fun a b => cmp a b <= 0) l.
(** The values that compare equal to [k], in the order they have in the list. *)
Definition class (k : A) (l : list A) : list A := filter (fun x => cmp k x =? 0) l.
(** [r] is the stable ordering of [l]: the same values, in order, and values that compare equal stay in their order. *)
Definition stable_sort_of (l r : list A) : Prop :=
  Permutation l r /\ sorted r /\ forall k, ok k -> class k r = class k l.
End Spec.
