(** What arithmetic is. *)
From Verif Require Import Base BitsModel BitsSpec ArithModel.
From Coq Require Import List.

(** the elements *)
Definition vals (a : arr) : list Z := match a with AB wp n => map (fun b : bool => if b then 1 else 0) (bits_of wp 0 n) | AI _ l => l | AF l => l end.
(** whole numbers that a double can hold *)
Definition is_double (z : Z) : Prop := exists m e, 0 <= e /\ - 2 ^ 53 <= m <= 2 ^ 53 /\ z = m * 2 ^ e.
(** stored as its type requires *)
Definition arr_ok (a : arr) : Prop :=
  match a with
  | AB wp n => words wp /\ 0 <= n <= 64 * Z.of_nat (length wp)
  | AI k l => (k = 8 \/ k = 16 \/ k = 32) /\ Forall (fun z => - 2 ^ (k - 1) <= z < 2 ^ (k - 1)) l
  | AF l => Forall is_double l
  end.
(** the mathematical operations *)
Definition exact (o : op) (w x : Z) : Z :=
  match o with OAdd => w + x | OSub => w - x | OMul | OAnd => w * x | OOr => w + x - w * x | OMin => Z.min w x | OMax => Z.max w x end.
(** the double nearest to z *)
Definition nearest (z d : Z) : Prop := is_double d /\ forall d', is_double d' -> Z.abs (z - d) <= Z.abs (z - d').
Definition map2 {A B C} (f : A -> B -> C) (l : list A) (m : list B) : list C := map (fun p => f (fst p) (snd p)) (combine l m).
(** narrowing an array keeps its elements *)
Definition keeps_arr (sq : arr -> arr) : Prop := forall a, arr_ok a -> arr_ok (sq a) /\ vals (sq a) = vals a.
