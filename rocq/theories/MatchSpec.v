(** Data of stored values, whatever their storage. *)
From Verif Require Import Base BitsSpec TagSpec NumSpec ArrSpec DataSpec MatchModel.

Fixpoint oden (o : obj) : data :=
  match o with
  | OAtom w => DAtom (den w)
  | OBits sh ws => DArr sh (map (fun b : bool => DAtom (VNum (if b then one else 0))) (bits_of ws 0 (prod sh)))
  | OTyped sh t raws => DArr sh (map (fun z => DAtom (vof t z)) raws)
  | OBox sh els => DArr sh (map oden els)
  end.
(** A properly stored value: element counts agree with the shape, elements are in the range of their type, and there is a word for every
    64 bits of a bit array. *)
Fixpoint ovalid (o : obj) : Prop :=
  match o with
  | OAtom w => raw_ok EB w
  | OBits sh ws => Forall (fun n => 0 <= n) sh /\ words ws /\ prod sh <= 64 * Z.of_nat (length ws)
  | OTyped sh t raws => Forall (fun n => 0 <= n) sh /\ t <> EBit /\ t <> EB /\ Z.of_nat (length raws) = prod sh /\ Forall (raw_ok t) raws
  | OBox sh els => Forall (fun n => 0 <= n) sh /\ Z.of_nat (length els) = prod sh /\
      (fix all (l : list obj) : Prop := match l with [] => True | x :: t => ovalid x /\ all t end) els
  end.
(** A stored value that is plain data: numbers, characters and arrays of plain data. *)
Definition odata (o : obj) : Prop := ovalid o /\ plain (oden o).
