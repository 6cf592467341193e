(** What writing to and appending to arrays under construction should do. *)
From Verif Require Import Base BitsModel BitsSpec SqueezeModel ReuseModel MutModel.
From Coq Require Import List.
Open Scope Z_scope.

(** Memory for at least n elements, every one a possible value of the machine type; for bits, with one readable word after them. *)
Definition room (s : store) (n : nat) : Prop :=
  match s with
  | SBits w => words w /\ Z.of_nat n + 64 <= 64 * Z.of_nat (length w)
  | SCells e c => e <> EBit /\ (n <= length c)%nat /\ Forall (fun v => fits e v = true) c
  end.
(** The allocator gives memory of the size and type asked for, with anything in it. *)
Definition fresh (mk : el -> nat -> store) : Prop := forall e n, st_el (mk e n) = e /\ room (mk e n) n.
(** Reading memory gives the values l. *)
Definition contents (s : store) (l : list val) : Prop := forall i v, nth_error l i = Some v -> getU s i = Ok v.

(** ** Writing at positions *)
Inductive op :=
| WSet (i : nat) (v : val)                                       (* one value *)
| WFill (i : nat) (v : val) (l : nat)                            (* l copies of a value *)
| WCopy (ms : nat) (x : store) (xl : list val) (xs l : nat)      (* l elements of an array that has the elements xl, from position xs of it *)
| WSetG (i : nat) (v : val) | WFillG (i : nat) (v : val) (l : nat) | WCopyG (ms : nat) (x : store) (xl : list val) (xs l : nat). (* the same where the caller has chosen a type that fits *)
Section Run.
Variable mk : el -> nat -> store.
Definition step (m : mut) (o : op) : res mut :=
  match o with
  | WSet i v => mut_set mk m i v
  | WFill i v l => mut_fill mk m i v l
  | WCopy ms x _ xs l => mut_copy mk m ms x xs l
  | WSetG i v => with_st m (fun s => setG s i v)
  | WFillG i v l => with_st m (fun s => fillG s i v l)
  | WCopyG ms x _ xs l => with_st m (fun s => copyG s ms x xs l)
  end.
Fixpoint run (m : mut) (os : list op) : res mut := match os with [] => Ok m | o :: os => do m <- step m o; run m os end.
(** a new Mut for n elements, without a type or with one chosen by the caller *)
Definition start (n : nat) (e : option el) : mut := {| m_ia := n; m_st := match e with None => None | Some e => Some (mk e n) end |}.
End Run.
Definition fits_start (e : option el) (v : val) : Prop := match e with None => False | Some e => fits e v = true end.
Definition source (x : store) (xl : list val) : Prop := room x (length xl) /\ contents x xl.
(** the writes are within the array, and known to fit where the caller claims so *)
Definition legal (n : nat) (e : option el) (o : op) : Prop :=
  match o with
  | WSet i _ => (i < n)%nat
  | WFill i _ l => (i + l <= n)%nat
  | WCopy ms x xl xs l => source x xl /\ (ms + l <= n)%nat /\ (xs + l <= length xl)%nat
  | WSetG i v => (i < n)%nat /\ fits_start e v
  | WFillG i v l => (i + l <= n)%nat /\ fits_start e v
  | WCopyG ms x xl xs l => source x xl /\ (ms + l <= n)%nat /\ (xs + l <= length xl)%nat /\ match e with None => False | Some e => el_or e (st_el x) = e end
  end.
(** what has been written so far: None where nothing was *)
Definition put (t : list (option val)) (i : nat) (l : list val) : list (option val) := firstn i t ++ map Some l ++ skipn (i + length l) t.
Definition wrote (t : list (option val)) (o : op) : list (option val) :=
  match o with
  | WSet i v | WSetG i v => put t i [v]
  | WFill i v l | WFillG i v l => put t i (repeat v l)
  | WCopy ms _ xl xs l | WCopyG ms _ xl xs l => put t ms (firstn l (skipn xs xl))
  end.

(** ** Appending *)
Definition shape_of (x : src) : list nat := match x with Atom _ => [] | Arr sh _ _ => sh end.
Definition elems_of (x : src) (l : list val) : Prop := match x with Atom v => l = [v] | Arr sh s _ => length l = prod sh /\ source s l end.
