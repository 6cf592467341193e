(** Take, Drop, Rotate, Reverse, shifts: results given index by index. Shapes, indices and [elt] are those of TransSpec. *)
From Coq Require Import List Arith ZArith.
Import ListNotations.
From Verif Require Import TransSpec.
Open Scope nat_scope.
(** the index moved by d on each axis, when that is an index of an array of shape [sh] *)
Fixpoint source (d : list Z) (sh idx : list nat) : option (list nat) :=
  match d, sh, idx with
  | [], [], [] => Some []
  | d :: ds, l :: sh, i :: idx =>
    let j := (Z.of_nat i + d)%Z in
    if ((0 <=? j) && (j <? Z.of_nat l))%Z%bool then option_map (cons (Z.to_nat j)) (source ds sh idx) else None
  | _, _, _ => None
  end.
(** [r] shows 𝕩 through a window displaced by [d]; outside of 𝕩 there is the fill *)
Definition moved {A} (d : list Z) (xsh : list nat) (x : list A) (rsh : list nat) (fill : option A) (r : list A) : Prop :=
  array rsh r /\ forall I, inb rsh I -> elt rsh r I = match source d xsh I with Some J => elt xsh x J | None => fill end.
(** Take: |w| elements, from the start or (negative) up to the end; Drop: all but |w| *)
Definition take_len (w : Z) (l : nat) : Z := Z.abs w.
Definition take_off (w : Z) (l : nat) : Z := if (0 <=? w)%Z then 0%Z else (Z.of_nat l - Z.abs w)%Z.
Definition drop_len (w : Z) (l : nat) : Z := Z.max 0 (Z.of_nat l - Z.abs w).
Definition drop_off (w : Z) (l : nat) : Z := if (0 <=? w)%Z then w else 0%Z.
(** a list 𝕨 is for the leading axes; the others stay; missing axes of 𝕩 are leading axes of length 1 *)
Fixpoint per_axis (f : Z -> nat -> Z) (g : nat -> Z) (ws : list Z) (sh : list nat) : list Z :=
  match ws, sh with
  | w :: ws, l :: sh => f w l :: per_axis f g ws sh
  | _, sh => map g sh
  end.
Definition padded (k : nat) (sh : list nat) : list nat := repeat 1 (k - length sh) ++ sh.
Definition lengths (len : Z -> nat -> Z) (ws : list Z) (xsh : list nat) : list Z := per_axis len Z.of_nat ws (padded (length ws) xsh).
Definition offsets (off : Z -> nat -> Z) (ws : list Z) (xsh : list nat) : list Z := per_axis off (fun _ => 0%Z) ws (padded (length ws) xsh).
Definition taken {A} (ws : list Z) (xsh : list nat) (x : list A) (fill : option A) (rsh : list nat) (r : list A) : Prop :=
  map Z.of_nat rsh = lengths take_len ws xsh /\ moved (offsets take_off ws xsh) (padded (length ws) xsh) x rsh fill r.
Definition dropped {A} (ws : list Z) (xsh : list nat) (x : list A) (rsh : list nat) (r : list A) : Prop :=
  map Z.of_nat rsh = lengths drop_len ws xsh /\ moved (offsets drop_off ws xsh) (padded (length ws) xsh) x rsh None r.
(** Rotate: the index on each axis moves round by 𝕨 *)
Fixpoint turn (ws : list Z) (sh idx : list nat) : list nat :=
  match ws, sh, idx with
  | w :: ws, l :: sh, i :: idx => Z.to_nat ((Z.of_nat i + w) mod Z.of_nat l) :: turn ws sh idx
  | _, _, idx => idx
  end.
Definition rotated {A} (ws : list Z) (sh : list nat) (x : list A) (r : list A) : Prop :=
  array sh r /\ forall I, inb sh I -> elt sh r I = elt sh x (turn ws sh I).
(** Reverse: cell i is cell n-1-i *)
Definition reversed {A} (sh : list nat) (x : list A) (r : list A) : Prop :=
  array sh r /\ forall i I n, inb sh (i :: I) -> nth_error sh 0 = Some n -> elt sh r (i :: I) = elt sh x (n - 1 - i :: I).
