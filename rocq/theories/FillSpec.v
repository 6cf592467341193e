(** What fills are. *)
From Verif Require Import Base TagModel TagSpec NumSpec ArrSpec FillModel.
From Verif Require PervSpec.
From Coq Require Import List.
Open Scope Z_scope.
Notation tree := PervSpec.tree.
Notation TA := PervSpec.TA.
Notation TN := PervSpec.TN.
(** the value: atoms, and arrays by shape and elements *)
Fixpoint tree_of (a : fv) : tree := match a with At w => TA (den w) | Ty sh e l => TN sh (map (fun z => TA (vof e z)) l) | Bx sh d _ => TN sh (map tree_of d) end.
(** the prototype of a value: 0 for every number, a space for every character *)
Inductive proto : tree -> tree -> Prop :=
| p_num v : is_number v -> proto (TA v) (TA (VNum 0))
| p_chr n : proto (TA (VChr n)) (TA (VChr 32))
| p_arr sh l r : Forall2 proto l r -> proto (TN sh l) (TN sh r).
(** what fills consist of: zeros and spaces *)
Fixpoint fill_ok (a : fv) : Prop :=
  match a with
  | At w => w = 0 \/ w = space
  | Ty sh e l => e <> EB /\ length l = size sh /\ Forall (fun z => z = if elNum e then 0 else 32) l
  | Bx sh d f => length d = size sh /\ (fix all l := match l with [] => True | a :: l => fill_ok a /\ all l end) d /\ match f with Some g => fill_ok g | None => True end
  end.
(** elements within their types, as many as the shape says, and fills of zeros and spaces *)
Fixpoint wff (a : fv) : Prop :=
  match a with
  | At w => raw_ok EB w
  | Ty sh e l => e <> EB /\ length l = size sh /\ Forall (raw_ok e) l
  | Bx sh d f => length d = size sh /\ (fix all l := match l with [] => True | a :: l => wff a /\ all l end) d /\ match f with Some g => fill_ok g | None => True end
  end.
Definition is_array (a : fv) : Prop := match a with At _ => False | _ => True end.
