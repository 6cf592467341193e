(** Specification of the monadic search functions, on data. *)
From Verif Require Import Base TagSpec DataSpec MatchModel MatchSpec HashModel CompareModel CompareSpec SearchSpec SelfModel.
From Coq Require Import Sorting.Sorted.

(** a is not after b in the array order of C15 *)
Definition ordered (a b : data) : Prop := exists w x c, plain_data w /\ plain_data x /\ gden w = a /\ gden x = b /\ compare w x = Ok c /\ c <= 0.
(** The sortedness flags of an array are true (src/h.h:621-625). *)
Definition sorted_flags (o : hobj) : Prop :=
  (h_asc (hflg o) = true -> StronglySorted ordered (els (oden (erase o)))) /\
  (h_dsc (hflg o) = true -> StronglySorted (fun a b => ordered b a) (els (oden (erase o)))).

(** element k of X comes before position j and matches the element there *)
Definition seen (X : list data) (j k : nat) : Prop := (k < j)%nat /\ exists d d', nth_error X k = Some d /\ nth_error X j = Some d' /\ same d d'.
(** ∊X: is the element the first of its kind? *)
Definition mark_firsts (X : list data) (r : list bool) : Prop :=
  length r = length X /\ forall j b, nth_error r j = Some b -> (b = true <-> forall k, ~ seen X j k).
(** ⊒X: how many earlier elements match it? *)
Definition occurrences (X : list data) (r : list Z) : Prop :=
  length r = length X /\ forall j c, nth_error r j = Some c -> exists ks, NoDup ks /\ (forall k, In k ks <-> seen X j k) /\ c = Z.of_nat (length ks).
(** ⊐X: matching elements have the same number, and the first of its kind has the smallest number not yet used: one more than the largest so far. *)
Definition next_number (l : list Z) : Z := fold_right (fun a m => Z.max (a + 1) m) 0 l.
Definition classes (X : list data) (r : list Z) : Prop :=
  length r = length X /\ forall j c, nth_error r j = Some c ->
    (forall k, seen X j k -> nth_error r k = Some c) /\ ((forall k, ~ seen X j k) -> c = next_number (firstn j r)).
(** ⍷X: the elements that are the first of their kind, in order *)
Fixpoint at_marks (m : list bool) (X : list data) : list data := match m, X with b :: m, d :: X => if b then d :: at_marks m X else at_marks m X | _, _ => [] end.
Definition deduplicated (X U : list data) : Prop := exists m, mark_firsts X m /\ U = at_marks m X.
