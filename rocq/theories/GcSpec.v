(** Graphs of objects and reachability, independent of the collector. *)
From Verif Require Import Base GcModel.

(** x is reached from a start over pointers *)
Inductive reach (h : gheap) (start : nat -> Prop) : nat -> Prop :=
| reach_start x : start x -> reach h start x
| reach_step x o y : reach h start x -> nth_error h x = Some o -> In y (o_refs o) -> reach h start y.

Definition allocated (o : obj) : Prop := o_kind o <> GEmpty.
(** number of pointers to y held by the allocated objects of the heap *)
Definition pointers_to (h : gheap) (y : nat) : Z :=
  fold_right (fun o s => (match o_kind o with GEmpty => 0 | _ => Z.of_nat (count_occ Nat.eq_dec (o_refs o) y) end) + s) 0 h.
(** [ext y]: number of references to y held outside of the heap (roots and C locals).
    A heap is consistent if every allocated object has a positive count, which is exactly the number of references to it; pointers lead to allocated objects;
    shape and temporary objects hold no pointers; and nothing is in the intermediate state left by an unfinished collection. *)
Definition consistent (h : gheap) (ext : nat -> Z) : Prop :=
  (forall y, 0 <= ext y) /\
  (forall x o, nth_error h x = Some o -> allocated o ->
     o_refc o = ext x + pointers_to h x /\ 0 < o_refc o /\
     (forall y, In y (o_refs o) -> exists p, nth_error h y = Some p /\ allocated p) /\ (o_kind o = GSkip -> o_refs o = []) /\ o_kind o <> GFreed) /\
  (forall y, 0 < ext y -> exists p, nth_error h y = Some p /\ allocated p).
