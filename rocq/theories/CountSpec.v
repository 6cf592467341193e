(** What the inverse of Indices is: how often each number occurs. *)
From Coq Require Import ZArith List.
Import ListNotations.
Open Scope Z_scope.
Definition occurrences (l : list Z) (v : Z) : Z := Z.of_nat (count_occ Z.eq_dec l v).
(** up to the largest element *)
Definition counted (l r : list Z) : Prop :=
  (exists m, In m l /\ Forall (fun v => v <= m) l /\ Z.of_nat (length r) = m + 1) /\ forall i, (i < length r)%nat -> nth_error r i = Some (occurrences l (Z.of_nat i)).
