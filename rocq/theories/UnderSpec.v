(** What Under with a selecting function gives: the places selected get the new values, all others stay. *)
From Verif Require Import Base ReuseModel TransSpec FnsModel UnderModel.
From Coq Require Import List.
Open Scope nat_scope.
(** the [k]-th cell of [csz] elements *)
Definition cell {A} (csz : nat) (l : list A) (k : nat) : list A := firstn csz (skipn (k * csz) l).
(** the value [v] means position [k] of an axis of length [n]; negative numbers count from the end *)
Definition index_of (n : nat) (v : val) (k : nat) : Prop := k < n /\ (v = VNum (Z.of_nat k) \/ v = VNum (Z.of_nat k - Z.of_nat n)%Z).
Definition picked {A} (csz : nat) (idx : list nat) (x : list A) : list A := flat_map (cell csz x) idx.
(** new values for the same cell are the same *)
Definition consistent {A} (csz : nat) (idx : list nat) (rep : list A) : Prop := forall i i' k, nth_error idx i = Some k -> nth_error idx i' = Some k -> cell csz rep i = cell csz rep i'.
Definition replaced {A} (csz n : nat) (idx : list nat) (x rep r : list A) : Prop :=
  length r = length x /\ (forall i k, nth_error idx i = Some k -> cell csz r k = cell csz rep i) /\ (forall k, k < n -> ~ In k idx -> cell csz r k = cell csz x k).
(** the new values for each element of 𝕩 that was replicated [w] times *)
Fixpoint groups {A} (w : list nat) (rep : list A) : list (list A) := match w with [] => [] | c :: w => firstn c rep :: groups w (skipn c rep) end.
Definition uniform {A} (g : list A) : Prop := forall u v, In u g -> In v g -> u = v.
Definition regrouped {A} (w : list nat) (x rep r : list A) : Prop :=
  length r = length x /\ forall i g, nth_error (groups w rep) i = Some g -> match g with [] => nth_error r i = nth_error x i | _ => Forall (fun v => nth_error r i = Some v) g end.
(** [w] gives the index [I], one position for every axis *)
Definition index_vec (xsh : list nat) (w : list val) (I : list nat) : Prop := length I = length xsh /\ Forall2 (fun v '(n, k) => index_of n v k) w (combine xsh I).
(** one element changed *)
Definition changed {A} (xsh : list nat) (x : list A) (I : list nat) (v : A) (r : list A) : Prop :=
  array xsh r /\ elt xsh r I = Some v /\ forall J, inb xsh J -> J <> I -> elt xsh r J = elt xsh x J.
(** every element of 𝕩 as often as [w] says *)
Fixpoint replicated {A} (w : list nat) (x : list A) : list A := match w, x with c :: w, v :: x => repeat v c ++ replicated w x | _, _ => [] end.
(** the first or the last [k] cells, and 𝕩 with those replaced *)
Definition taken {A} (back : bool) (k csz : nat) (x : list A) : list A := if back then skipn (length x - k * csz) x else firstn (k * csz) x.
Definition put_back {A} (back : bool) (k csz : nat) (x rep : list A) : list A := if back then firstn (length x - k * csz) x ++ rep else rep ++ skipn (k * csz) x.
(** 𝔽 gives the array [rep] of shape [sh] for that array *)
Definition gives {A} (o : oper A) (sh : list nat) (arg rep : list A) : Prop :=
  match o with OFun f => f sh arg = Ok (RArr sh rep) | OArr s l => s = sh /\ l = rep | OEach c => rep = repeat c (length arg) end.
(** arrays 𝔽 gives have as many elements as their shape says *)
Definition wf_op {A} (o : oper A) : Prop := match o with OFun f => forall sh l s r, array sh l -> f sh l = Ok (RArr s r) -> array s r | OArr s l => array s l | OEach _ => True end.
Definition sum (l : list nat) : nat := fold_right Nat.add 0 l.
(** the length of the leading axis *)
Definition lead (xsh : list nat) : nat := match xsh with [] => 1 | n :: _ => n end.
