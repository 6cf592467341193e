(** Specification of hashing: the cached flags of every array, at every depth, are true (src/h.h:621-625). *)
From Verif Require Import Base BitsSpec TagSpec NumSpec ArrSpec DataSpec SqueezeModel SqueezeSpec MatchModel MatchSpec HashModel.

Fixpoint hflags_ok (o : hobj) : Prop :=
  match o with
  | HAtom _ => True
  | HBits f sh ws => flags_ok (with_fl f EBit (map (fun b : bool => if b then 1 else 0) (bits_of ws 0 (prod sh))))
  | HTyped f sh t l => flags_ok (with_fl f t l)
  | HBox f sh els => flags_ok (with_fl f EB (map word_of els)) /\
      (fix all (l : list hobj) : Prop := match l with [] => True | x :: t => hflags_ok x /\ all t end) els
  end.
