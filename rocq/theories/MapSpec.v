(** What Each, Table and Repeat do. Shapes, indices and [elt] are those of TransSpec. *)
From Coq Require Import List Arith ZArith.
Import ListNotations.
From Verif Require Import Base TransSpec MapModel.
Open Scope nat_scope.
(** the operand is called on the given arguments, in this order, each call seeing the state the previous one left; the first error ends it *)
Fixpoint calls {A V S : Type} (f : A -> S -> res (V * S)) (l : list A) (s : S) : res (list V * S) :=
  match l with
  | [] => Ok ([], s)
  | a :: l => match f a s with
              | Ok (v, s) => match calls f l s with Ok (vs, s) => Ok (v :: vs, s) | Err => Err | UB => UB end
              | Err => Err | UB => UB
              end
  end.
(** the array of these results *)
Definition shaped {V S : Type} (sh : list nat) (r : res (list V * S)) : res (arg V * S) :=
  match r with Ok (vs, s) => Ok (Ar sh vs, s) | Err => Err | UB => UB end.
(** an atom is used as an array of rank 0 *)
Definition arr_of {V} (a : arg V) : list nat * list V := match a with At v => ([], [v]) | Ar sh d => (sh, d) end.
Definition valid_arg {V} (a : arg V) : Prop := array (fst (arr_of a)) (snd (arr_of a)).
(** one shape is the beginning of the other *)
Definition agree (a b : list nat) : Prop := (exists t, b = a ++ t) \/ (exists t, a = b ++ t).
Definition longer (a b : list nat) : list nat := if length b <? length a then a else b.
(** Each: at index I, the arguments are the elements of 𝕨 and 𝕩 at as many leading axes of I as they have *)
Definition paired {V} (w x : arg V) (rsh : list nat) (ps : list (V * V)) : Prop :=
  let (wsh, wd) := arr_of w in let (xsh, xd) := arr_of x in
  rsh = longer wsh xsh /\ array rsh ps /\
  forall I, inb rsh I -> exists a b, elt rsh ps I = Some (a, b) /\ elt wsh wd (firstn (length wsh) I) = Some a /\ elt xsh xd (firstn (length xsh) I) = Some b.
(** Table: at index I followed by J, the arguments are the element of 𝕨 at I and that of 𝕩 at J *)
Definition tabled {V} (w x : arg V) (rsh : list nat) (ps : list (V * V)) : Prop :=
  let (wsh, wd) := arr_of w in let (xsh, xd) := arr_of x in
  rsh = wsh ++ xsh /\ array rsh ps /\
  forall I J, inb wsh I -> inb xsh J -> exists a b, elt rsh ps (I ++ J) = Some (a, b) /\ elt wsh wd I = Some a /\ elt xsh xd J = Some b.
(** what calling the operand does: a modifier cannot be called, another value that is not a function is returned *)
Definition do1 {V S} (f : op1 V S) (x : V) (s : S) : res (V * S) :=
  match f with F1 f => f x s | Tack => Ok (x, s) | Mod1 => Err | Const1 v => Ok (v, s) end.
Definition do2 {V S} (f : op2 V S) (p : V * V) (s : S) : res (V * S) :=
  match f with F2 f => f (fst p) (snd p) s | Mod2 => Err | Const2 v => Ok (v, s) end.
Definition dot {V S} (f : opt V S) (p : V * V) (s : S) : res (V * S) :=
  match f with
  | TF f => f (fst p) (snd p) s
  | TLeft => Ok (fst p, s)
  | TRight => Ok (snd p, s)
  | TPerv f => match f (fst p) (snd p) with Ok r => Ok (r, s) | Err => Err | UB => UB end
  | TMod => Err
  | TConst v => Ok (v, s)
  end.
(** ** Repeat *)
Open Scope Z_scope.
(** the numbers in 𝔾's result, at any depth; [bad]: something in it is not an integer *)
Inductive counts : gv -> Z -> Prop :=
| counts_num z : counts (GNum (Some z)) z
| counts_arr num sh gs g z : In g gs -> counts g z -> counts (GArr num sh gs) z.
Inductive bad : gv -> Prop :=
| bad_num : bad (GNum None)
| bad_other : bad GOther
| bad_arr num sh gs g : In g gs -> bad g -> bad (GArr num sh gs).
(** storage for numbers has only numbers *)
Inductive wf_g : gv -> Prop :=
| wf_num z : match z with Some z => - 2 ^ 63 <= z < 2 ^ 63 | None => True end -> wf_g (GNum z)
| wf_other : wf_g GOther
| wf_arr num sh gs : Forall wf_g gs -> (num = true -> Forall (fun g => exists z, g = GNum z) gs) -> wf_g (GArr num sh gs).
(** n calls of f one on the result of another, all the results *)
Fixpoint chain {V S : Type} (n : nat) (f : V -> S -> res (V * S)) (x : V) (s : S) : res (list V * S) :=
  match n with
  | O => Ok ([], s)
  | Datatypes.S n => match f x s with
                     | Ok (y, s) => match chain n f y s with Ok (ys, s) => Ok (y :: ys, s) | Err => Err | UB => UB end
                     | Err => Err | UB => UB
                     end
  end.
(** r is g with each number replaced with the value the function gives for it *)
Inductive substituted {V} (at_ : Z -> option V) : gv -> rv V -> Prop :=
| sub_num z v : at_ z = Some v -> substituted at_ (GNum (Some z)) (RV v)
| sub_arr num sh gs rs : Forall2 (substituted at_) gs rs -> substituted at_ (GArr num sh gs) (RArr sh rs).
(** count 0 is 𝕩 itself, 1 the first result of 𝔽, ¯1 that of its inverse *)
Definition nth_result {V} (x : V) (ups downs : list V) (z : Z) : option V :=
  if z =? 0 then Some x else if 0 <? z then nth_error ups (Z.to_nat (z - 1)) else nth_error downs (Z.to_nat (- z - 1)).
(** n is the highest count (-n the lowest), 0 counting as one of them *)
Definition highest (g : gv) (n : Z) : Prop := 0 <= n /\ (n = 0 \/ counts g n) /\ forall z, counts g z -> z <= n.
Definition lowest (g : gv) (n : Z) : Prop := 0 <= n /\ (n = 0 \/ counts g (- n)) /\ forall z, counts g z -> - n <= z.
(** an array of counts, or a negative count, must be below 2^48 in size; there is no limit for a number from 0 *)
Definition in_limits (g : gv) (lo hi : Z) : Prop := (exists n, g = GNum (Some n) /\ 0 <= n) \/ (hi < 2 ^ 48 /\ lo < 2 ^ 48).
