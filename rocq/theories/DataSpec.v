(** BQN data as trees, independent of how it is stored: a number, not-a-number, a character, another atom, or an array
    (shape and elements in ravel order). *)
From Verif Require Import Base TagSpec NumSpec ArrSpec.

Inductive data := DAtom (v : value) | DArr (sh : list Z) (els : list data).

Definition prod (l : list Z) : Z := fold_right Z.mul 1 l.

(** Arrays are well-formed: as many elements as the shape says. *)
Fixpoint wf (d : data) : Prop :=
  match d with
  | DAtom _ => True
  | DArr sh els => Forall (fun n => 0 <= n) sh /\ Z.of_nat (length els) = prod sh /\
      (fix all (l : list data) : Prop := match l with [] => True | x :: t => wf x /\ all t end) els
  end.
(** Only numbers and characters, at every depth. *)
Fixpoint plain (d : data) : Prop :=
  match d with
  | DAtom v => is_number v \/ is_char v
  | DArr _ els => (fix all (l : list data) : Prop := match l with [] => True | x :: t => plain x /\ all t end) els
  end.
Fixpoint nan_free (d : data) : Prop :=
  match d with
  | DAtom v => v <> VNaN
  | DArr _ els => (fix all (l : list data) : Prop := match l with [] => True | x :: t => nan_free x /\ all t end) els
  end.
