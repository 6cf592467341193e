(** What a user expects of a hash map: an association list in insertion order. *)
From Verif Require Import Base.
From Verif Require Import HashMapModel. (* only for the types [op] of calls and [out] of results *)

(** More than t+31 keys have one of the t largest values of the upper 32 bits of the hash. *)
Definition clustered {K : Type} (hash : K -> Z) (ks : list K) : Prop :=
  exists t, 1 <= t <= 2^32 /\ t + 32 <= Z.of_nat (length (filter (fun k => 2^32 - t <=? hash k / 2^32) ks)).

Section Spec.
Context {K V : Type}.
Variable eqk : K -> K -> bool.

Definition amap := list (K * V).
Fixpoint a_get (m : amap) (k : K) : option V :=
  match m with [] => None | (k', v) :: m => if eqk k k' then Some v else a_get m k end.
(** set keeps the position of a present key and adds an absent one at the end *)
Fixpoint a_set (m : amap) (k : K) (v : V) : amap :=
  match m with [] => [(k, v)] | (k', v') :: m => if eqk k k' then (k', v) :: m else (k', v') :: a_set m k v end.
Fixpoint a_delete (m : amap) (k : K) : amap :=
  match m with [] => [] | (k', v') :: m => if eqk k k' then m else (k', v') :: a_delete m k end.
Definition a_keys (m : amap) : list K := map fst m.
Definition a_values (m : amap) : list V := map snd m.
Definition a_count (m : amap) : Z := Z.of_nat (length m).
(** The interface as the documentation describes it. *)
Definition a_step (m : list (K * V)) (o : @op K V) : list (K * V) * res (@out K V) :=
  match o with
  | OGet k d => (m, match a_get m k, d with Some v, _ => Ok (OutVal v) | None, Some d => Ok (OutVal d) | None, None => Err end)
  | OHas k => (m, Ok (OutBool (match a_get m k with Some _ => true | None => false end)))
  | OSet k v _ => (a_set m k v, Ok OutUnit)
  | ODelete k _ => match a_get m k with Some _ => (a_delete m k, Ok OutUnit) | None => (m, Err) end
  | OCount => (m, Ok (OutNum (a_count m)))
  | OKeys => (m, Ok (OutKeys (a_keys m)))
  | OValues => (m, Ok (OutVals (a_values m)))
  end.
Fixpoint a_run (m : list (K * V)) (os : list (@op K V)) : list (res (@out K V)) :=
  match os with
  | [] => []
  | o :: os => let '(m1, r) := a_step m o in r :: a_run m1 os
  end.

(** the association list after the calls *)
Fixpoint a_final (m : list (K * V)) (os : list (@op K V)) : list (K * V) :=
  match os with
  | [] => m
  | o :: os => a_final (fst (a_step m o)) os
  end.
End Spec.
