(** What trains and combinators mean, as BQN expressions. *)
From Verif Require Import Base TrainModel.
From Coq Require Import List.
Import ListNotations.
Open Scope Z_scope.
(** expressions: a value; F X; W F X; trying one expression and, if it throws, another; a conditional; the choice of a function from a list *)
Inductive expr := V (v : val) | C1 (f : val) (x : expr) | C2 (w : expr) (f : val) (x : expr) | Try (a b : expr) | If (c a b : expr) | Sel (i : expr) (g : val) (w : option val) (x : val).
Definition apply (f : val) (w : option val) (x : expr) : expr := match w with None => C1 f x | Some w => C2 (V w) f x end.
(** the definitions: each function with an argument [x] and perhaps [w] *)
Definition body (obj : nat -> val * val * val) (f : val) (w : option val) (x : val) : option expr :=
  match f with
  | Fork id => let '(f, g, h) := obj id in Some (C2 (apply f w (V x)) g (apply h w (V x)))
  | Atop g h => Some (C1 g (apply h w (V x)))
  | D1 Const f => Some (V f)
  | D1 Swap f => Some (C2 (V x) f (V (match w with None => x | Some w => w end)))
  | D2 Val f g => Some (match w with None => C1 f (V x) | Some w => C2 (V w) g (V x) end)
  | D2 Catch f g => Some (Try (apply f w (V x)) (apply g w (V x)))
  | D2 Before f g => Some (C2 (C1 f (V (match w with None => x | Some w => w end))) g (V x))
  | D2 After f g => Some (C2 (V (match w with None => x | Some w => w end)) f (C1 g (V x)))
  | D2 Compose f g => Some (C1 f (apply g w (V x)))
  | D2 Over f g => Some (match w with None => C1 f (C1 g (V x)) | Some w => C2 (C1 g (V w)) f (C1 g (V x)) end)
  | D2 Cond f g => Some (Sel (apply f w (V x)) g w x)
  | D2 While f g => Some (If (apply g w (V x)) (apply (D2 While f g) w (apply f w (V x))) (V x))
  | _ => None
  end.
(** the same, except that a 3-train of a modifier and two functions takes the modifier for data *)
Definition body_as_is (obj : nat -> val * val * val) (f : val) (w : option val) (x : val) : option expr :=
  match f with
  | Fork id => let '(f, g, h) := obj id in if isMd f && isFun g && isFun h then Some (C2 (V f) g (apply h w (V x))) else body obj (Fork id) w x
  | _ => body obj f w x
  end.
Section S.
Variable W : Type.
Variable prim : Z -> option val -> val -> err -> W -> out * W.
Variable pick : val -> val -> out.
(** ◶: a number chooses from a list, counted from the end if it is negative; all else is left to Pick *)
Inductive sel : val -> val -> out -> Prop :=
| s_front i n l f : 0 <= i -> nth_error l (Z.to_nat i) = Some f -> sel (Num i) (Arr [n] l) (Ret f)
| s_back i n l f : i < 0 -> 0 <= i + Z.of_nat (length l) -> nth_error l (Z.to_nat (i + Z.of_nat (length l))) = Some f -> sel (Num i) (Arr [n] l) (Ret f)
| s_out i n l : i < - Z.of_nat (length l) \/ Z.of_nat (length l) <= i -> sel (Num i) (Arr [n] l) (Thr EIdx)
| s_int k n l : sel (Frac k) (Arr [n] l) (Thr EInt)
| s_rank r g : (exists i, r = Num i \/ r = Frac i) -> (forall n l, g <> Arr [n] l) -> sel r g (Thr ERank)
| s_pick r g : (forall i, r <> Num i /\ r <> Frac i) -> sel r g (pick r g).
Variable def : val -> option val -> val -> option expr.
(** evaluation with the definitions [def], from right to left; [e] is the error that is being handled. Data are constant functions, modifiers cannot be called. *)
Inductive ev : err -> expr -> W -> out -> W -> Prop :=
| e_v e v s : ev e (V v) s (Ret v) s
| e_c1 e f x v s s1 o s2 : ev e x s (Ret v) s1 -> ap e f None v s1 o s2 -> ev e (C1 f x) s o s2
| e_c1t e f x t s s1 : ev e x s (Thr t) s1 -> ev e (C1 f x) s (Thr t) s1
| e_c2 e w f x v u s s1 s2 o s3 : ev e x s (Ret v) s1 -> ev e w s1 (Ret u) s2 -> ap e f (Some u) v s2 o s3 -> ev e (C2 w f x) s o s3
| e_c2w e w f x v t s s1 s2 : ev e x s (Ret v) s1 -> ev e w s1 (Thr t) s2 -> ev e (C2 w f x) s (Thr t) s2
| e_c2x e w f x t s s1 : ev e x s (Thr t) s1 -> ev e (C2 w f x) s (Thr t) s1
| e_try e a b v s s1 : ev e a s (Ret v) s1 -> ev e (Try a b) s (Ret v) s1
| e_catch e a b t s s1 o s2 : ev e a s (Thr t) s1 -> ev t b s1 o s2 -> ev e (Try a b) s o s2
| e_yes e c a b s s1 o s2 : ev e c s (Ret (Num 1)) s1 -> ev e a s1 o s2 -> ev e (If c a b) s o s2
| e_no e c a b s s1 o s2 : ev e c s (Ret (Num 0)) s1 -> ev e b s1 o s2 -> ev e (If c a b) s o s2
| e_bool e c a b v s s1 : ev e c s (Ret v) s1 -> v <> Num 0 -> v <> Num 1 -> ev e (If c a b) s (Thr EBool) s1
| e_ift e c a b t s s1 : ev e c s (Thr t) s1 -> ev e (If c a b) s (Thr t) s1
| e_sel e i g w x r f s s1 o s2 : ev e i s (Ret r) s1 -> sel r g (Ret f) -> ap e f w x s1 o s2 -> ev e (Sel i g w x) s o s2
| e_selt e i g w x r t s s1 : ev e i s (Ret r) s1 -> sel r g (Thr t) -> ev e (Sel i g w x) s (Thr t) s1
| e_selx e i g w x t s s1 : ev e i s (Thr t) s1 -> ev e (Sel i g w x) s (Thr t) s1
with ap : err -> val -> option val -> val -> W -> out -> W -> Prop :=
| a_data e f w x s : match f with Num _ | Frac _ | Chr _ | Arr _ _ | Nsp _ => True | _ => False end -> ap e f w x s (Ret f) s
| a_mod e k w x s : ap e (Mod k) w x s (Thr EMod) s
| a_prim e p w x s : ap e (Prim p) w x s (fst (prim p w x e s)) (snd (prim p w x e s))
| a_def e f w x b s o s' : def f w x = Some b -> ev e b s o s' -> ap e f w x s o s'.
End S.
(** the pointers of every fork are those of a new fork, or those that its first call sets *)
Definition ptrs_ok (obj : nat -> val * val * val) (c : cache) : Prop := forall id, let '(f, g, h) := obj id in
  (fst (c id) = PInit \/ fst (c id) = choose f g h) /\ (snd (c id) = PInit \/ snd (c id) = choose f g h).
(** the left operand of no fork is a modifier *)
Definition no_mod (obj : nat -> val * val * val) : Prop := forall id k, fst (fst (obj id)) <> Mod k.
Definition sane (o : out) : Prop := o <> Bad.
