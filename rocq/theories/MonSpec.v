(** What + - | ⌊ ⌈ × ¬ of one argument are: the function of every number in the argument. Numbers are scaled by [one], see NumSpec.v. *)
From Verif Require Import Base TagModel TagSpec NumSpec ArrSpec PervModel PervSpec MonModel.
From Verif Require ArithModel.
From Coq Require Import List.
Open Scope Z_scope.
(** of a number; ¬ rounds 1-x to a double, to nearest with ties to even *)
Definition of_num (o : mop) (x : Z) : Z :=
  match o with
  | MConj => x
  | MNeg => - x
  | MAbs => Z.abs x
  | MFloor => x / one * one
  | MCeil => - (- x / one * one)
  | MSign => Z.sgn x * one
  | MNot => ArithModel.rnd (one - x)
  end.
(** × of not-a-number is ¯1 *)
Definition of_value (o : mop) (v : value) : option value :=
  match v with
  | VNum x => Some (VNum (of_num o x))
  | VNaN => Some (match o with MSign => VNum (- one) | _ => VNaN end)
  | _ => None
  end.
Inductive maps (o : mop) : tree -> tree -> Prop :=
| m_atom v r : of_value o v = Some r -> maps o (TA v) (TA r)
| m_array sh l r : Forall2 (maps o) l r -> maps o (TN sh l) (TN sh r).
(** elements within their types, and as many as the shape says *)
Fixpoint wfm (a : av) : Prop :=
  match a with
  | At w => raw_ok EB w
  | Ta sh e mem => e <> EB /\ (size sh <= length mem)%nat /\ Forall (raw_ok e) (firstn (size sh) mem)
  | Bx sh d => length d = size sh /\ (fix all l := match l with [] => True | a :: l => wfm a /\ all l end) d
  end.
(** [r] is the function of all numbers in [t], in a well-formed value; or an error, where there is something else than a number *)
Definition applied (o : mop) (t : tree) (r : res av) : Prop :=
  match r with Ok r => maps o t (tree_of r) /\ wfm r | Err => forall u, ~ maps o t u | UB => False end.
(** every atom is a number *)
Inductive numeric : tree -> Prop :=
| n_atom v : is_number v -> numeric (TA v)
| n_array sh l : Forall numeric l -> numeric (TN sh l).
