(** What = ≠ < ≤ > ≥ of two values are: the comparison of every pair of atoms, where arrays agree in their leading axes. *)
From Verif Require Import Base TagModel TagSpec NumSpec ArrSpec PervModel.
From Coq Require Import List.
Open Scope Z_scope.
Definition holds (o : op) (x y : Z) : Prop := match o with OEq => x = y | ONe => x <> y | OGt => x > y | OGe => x >= y | OLt => x < y | OLe => x <= y end.
Definition ordered (o : op) : Prop := o <> OEq /\ o <> ONe.
Section S.
(** equality of two functions or other objects *)
Variable same : Z -> Z -> bool.
(** [says o a b c]: comparing the atoms gives [c] *)
Inductive says (o : op) : value -> value -> bool -> Prop :=
| s_num x y c : (c = true <-> holds o x y) -> says o (VNum x) (VNum y) c
| s_nan a b c : is_number a -> is_number b -> a = VNaN \/ b = VNaN -> (c = true <-> o = ONe) -> says o a b c
| s_chr x y c : (c = true <-> holds o x y) -> says o (VChr x) (VChr y) c
| s_num_chr a y c : is_number a -> (c = true <-> o = ONe \/ o = OLt \/ o = OLe) -> says o a (VChr y) c
| s_chr_num x b c : is_number b -> (c = true <-> o = ONe \/ o = OGt \/ o = OGe) -> says o (VChr x) b c
| s_obj p q : o = OEq -> says o (VOth p) (VOth q) (same p q)
| s_obj' p q : o = ONe -> says o (VOth p) (VOth q) (negb (same p q))
| s_mix_l p b c : (forall q, b <> VOth q) -> ~ ordered o -> (c = true <-> o = ONe) -> says o (VOth p) b c
| s_mix_r a q c : (forall p, a <> VOth p) -> ~ ordered o -> (c = true <-> o = ONe) -> says o a (VOth q) c.
Inductive tree := TA (v : value) | TN (sh : list nat) (l : list tree).
Definition copies {A} (k : nat) (l : list A) : list A := flat_map (fun v => repeat v k) l.
Inductive perv (o : op) : tree -> tree -> rv -> Prop :=
| p_atoms a b c : says o a b c -> perv o (TA a) (TA b) (RBit c)
| p_right a sh l r : Forall2 (perv o (TA a)) l r -> perv o (TA a) (TN sh l) (RArr sh r)
| p_left b sh l r : Forall2 (fun v => perv o v (TA b)) l r -> perv o (TN sh l) (TA b) (RArr sh r)
| p_less sh e l m r : Forall2 (fun p => perv o (fst p) (snd p)) (combine (copies (size e) l) m) r -> perv o (TN sh l) (TN (sh ++ e) m) (RArr (sh ++ e) r)
| p_more sh e l m r : Forall2 (fun p => perv o (fst p) (snd p)) (combine l (copies (size e) m)) r -> perv o (TN (sh ++ e) l) (TN sh m) (RArr (sh ++ e) r).
End S.
(** two objects are equal if they are one object, or values (functions, modifiers, namespaces) whose parts [decomp] finds equal *)
Definition same (decomp : Z -> Z -> bool) (p q : Z) : bool := (p =? q) || (isVal p && isVal q && decomp p q).
(** what the arguments of the model stand for *)
Fixpoint tree_of (a : av) : tree :=
  match a with At w => TA (den w) | Ta sh e mem => TN sh (map (fun z => TA (vof e z)) (firstn (size sh) mem)) | Bx sh d => TN sh (map tree_of d) end.
(** elements within their types and at least 64 more that can be read *)
Fixpoint wfa (a : av) : Prop :=
  match a with
  | At w => raw_ok EB w
  | Ta sh e mem => e <> EB /\ (size sh + 64 <= length mem)%nat /\ Forall (raw_ok e) (firstn (size sh) mem)
  | Bx sh d => length d = size sh /\ (fix all l := match l with [] => True | a :: l => wfa a /\ all l end) d
  end.
Fixpoint depth (a : av) : nat := match a with At _ => 0 | Ta _ _ _ => 2 | Bx _ d => S (fold_right (fun a m => Nat.max (depth a) m) 0%nat d) end.
(** [r] is the comparison of [t] with [u], or an error where there is none; nothing outside of an array is read *)
Definition compares (same : Z -> Z -> bool) (o : op) (t u : tree) (r : res rv) : Prop :=
  match r with Ok r => perv same o t u r | Err => forall r, ~ perv same o t u r | UB => False end.
