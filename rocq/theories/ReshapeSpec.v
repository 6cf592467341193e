(** Reshape in words: a list repeated from its start; shapes with one computed axis. No reference to the model. *)
From Coq Require Import ZArith List.
Import ListNotations.
Open Scope Z_scope.

(** r is the first n elements of x repeated without end *)
Definition repeats {A} (n : Z) (x r : list A) : Prop :=
  Z.of_nat (length r) = n /\
  forall i, 0 <= i < n -> nth_error r (Z.to_nat i) = nth_error x (Z.to_nat (i mod Z.of_nat (length x))).
(** r is x cut to length n, or extended to it with f *)
Definition padded {A} (n : Z) (f : option A) (x r : list A) : Prop :=
  Z.of_nat (length r) = n /\
  forall i, 0 <= i < n -> nth_error r (Z.to_nat i) = if i <? Z.of_nat (length x) then nth_error x (Z.to_nat i) else f.
Definition product (l : list Z) : Z := fold_right Z.mul 1 l.

(** The computed axis of a shape: with q the product of the given axes and n elements in 𝕩, ∘ must fit exactly, ⌊ rounds down,
    ⌽ and ↑ round up. *)
Inductive rounding := Exact | Down | Up.
Definition axis_rule (a : rounding) (q n c : Z) : Prop :=
  match a with
  | Exact => c * q = n
  | Down => c * q <= n < (c + 1) * q
  | Up => (c - 1) * q < n <= c * q
  end.
