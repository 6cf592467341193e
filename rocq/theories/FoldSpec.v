(** What Fold and Scan are: the operand applied between the elements, from the last to the first; from the first to the last with all intermediate results. *)
From Coq Require Import List.
Import ListNotations.
Fixpoint fold1 {A} (f : A -> A -> A) (l : list A) : option A :=
  match l with [] => None | a :: t => match fold1 f t with None => Some a | Some r => Some (f a r) end end.
Fixpoint scanl {A B} (f : A -> B -> A) (c : A) (l : list B) : list A := match l with [] => [] | a :: t => f c a :: scanl f (f c a) t end.
Definition scan1 {A} (f : A -> A -> A) (l : list A) : list A := match l with [] => [] | a :: t => a :: scanl f a t end.
