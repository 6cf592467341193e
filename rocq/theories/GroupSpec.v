(** What Group does: element or cell i of 𝕩 goes to the end of the list with number i⊑𝕨, or nowhere for ¯1. *)
From Coq Require Import List ZArith.
Import ListNotations.
Open Scope Z_scope.
Definition members {C} (w : list Z) (x : list C) (j : Z) : list C := map snd (filter (fun p => fst p =? j) (combine w x)).
(** the number of lists: one more than the largest number, or the extra element of 𝕨 if that is more *)
Definition ngroups (w : list Z) (n : nat) : Z := fold_right Z.max 0 (map Z.succ (firstn n w) ++ skipn n w).
Definition groups {C} (w : list Z) (x : list C) : list (list C) := map (fun j => members w x (Z.of_nat j)) (seq 0 (Z.to_nat (ngroups w (length x)))).
