(** What Select is. *)
From Verif Require Import Base.
From Coq Require Import List.

(** the cell a whole number names: counted from the start, or, if negative, from the end; none if out of range *)
Definition cell_at {A} (xs : list A) (z : Z) : option A :=
  let n := Z.of_nat (length xs) in
  if (0 <=? z) && (z <? n) then nth_error xs (Z.to_nat z) else if (- n <=? z) && (z <? 0) then nth_error xs (Z.to_nat (n + z)) else None.
Definition cell_of {A} (xs : list A) (e : option Z) : option A := match e with Some z => cell_at xs z | None => None end.
(** every index names a cell: the list of these cells; otherwise none *)
Fixpoint all_some {A} (l : list (option A)) : option (list A) :=
  match l with [] => Some [] | Some a :: l => match all_some l with Some r => Some (a :: r) | None => None end | None :: _ => None end.
Definition selection {A} (xs : list A) (is : list (option Z)) : option (list A) := all_some (map (cell_of xs) is).
Definition or_error {A} (o : option A) : res A := match o with Some a => Ok a | None => Err end.
