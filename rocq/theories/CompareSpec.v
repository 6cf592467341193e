(** Reading of model values as data, and lexicographic comparison. *)
From Verif Require Import Base TagSpec NumSpec ArrSpec DataSpec CompareModel.

(** The data that a value of the model stands for. *)
Fixpoint gden (g : gobj) : data :=
  match g with GAtom w => DAtom (den w) | GArr sh els => DArr sh (map gden els) end.
(** Every atom inside is a valid stored value. *)
Fixpoint stored (g : gobj) : Prop :=
  match g with
  | GAtom w => raw_ok EB w
  | GArr _ els => (fix all (l : list gobj) : Prop := match l with [] => True | x :: t => stored x /\ all t end) els
  end.
(** Plain data: numbers, characters, and well-formed arrays of plain data. *)
Definition plain_data (g : gobj) : Prop := stored g /\ wf (gden g) /\ plain (gden g).

(** Lexicographic comparison of lists under an element comparison: a proper prefix comes first. *)
Fixpoint lexc {A} (c : A -> A -> Z) (l1 l2 : list A) : Z :=
  match l1, l2 with
  | [], [] => 0
  | [], _ => -1
  | _, [] => 1
  | a :: l1, b :: l2 => if c a b =? 0 then lexc c l1 l2 else c a b
  end.
