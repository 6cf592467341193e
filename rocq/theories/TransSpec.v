(** Arrays as functions of a multi-index, and what ⍉ does to them. *)
From Coq Require Import List Arith.
Import ListNotations.
Open Scope nat_scope.
Definition size (sh : list nat) : nat := fold_right Nat.mul 1 sh.
(** position of an index in the list of elements: last axis fastest *)
Fixpoint ravel (sh idx : list nat) : nat := match sh, idx with _ :: sh, i :: idx => i * size sh + ravel sh idx | _, _ => 0 end.
Definition inb (sh I : list nat) : Prop := Forall2 (fun l i => i < l) sh I.
Definition elt {A} (sh : list nat) (l : list A) (I : list nat) : option A := nth_error l (ravel sh I).
Definition array {A} (sh : list nat) (l : list A) : Prop := length l = size sh.
(** ** Reorder Axes *)
Definition isin (j : nat) (w : list nat) : bool := existsb (Nat.eqb j) w.
(** axes of the result: those named in 𝕨, and one for each axis of 𝕩 that 𝕨 says nothing about *)
Definition rank (w : list nat) (xr : nat) : nat := length (nodup Nat.eq_dec w) + (xr - length w).
(** which axis of the result each axis of 𝕩 goes to: first those 𝕨 gives, then the result axes left, in order *)
Definition axes (w : list nat) (xr : nat) : list nat := w ++ filter (fun j => negb (isin j w)) (seq 0 (rank w xr)).
(** no more axes than 𝕩 has, and no axis of the result skipped *)
Definition valid (w : list nat) (xr : nat) : Prop := length w <= xr /\ Forall (fun a => a < rank w xr) w.
(** the length of a result axis is the smallest of the lengths that go to it; the element at index I is the element of 𝕩 whose index on each axis is that of I on the axis it goes to *)
Definition reordered {A} (w xsh : list nat) (x : list A) (rsh : list nat) (r : list A) : Prop :=
  length rsh = rank w (length xsh) /\ array rsh r /\
  (forall j, j < length rsh -> (exists i, nth_error (axes w (length xsh)) i = Some j /\ nth_error xsh i = nth_error rsh j) /\
                               forall i l m, nth_error (axes w (length xsh)) i = Some j -> nth_error xsh i = Some l -> nth_error rsh j = Some m -> m <= l) /\
  forall I, inb rsh I -> elt rsh r I = elt xsh x (map (fun a => nth a I 0) (axes w (length xsh))).
(** Transpose: the first axis becomes the last *)
Definition transposed {A} (xsh : list nat) (x : list A) (rsh : list nat) (r : list A) : Prop :=
  match xsh with
  | [] => rsh = [] /\ r = x
  | h :: tl => rsh = tl ++ [h] /\ array rsh r /\ forall i I, inb xsh (i :: I) -> elt rsh r (I ++ [i]) = elt xsh x (i :: I)
  end.
