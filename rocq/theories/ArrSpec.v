(** What a stored array means, independent of the model's helpers: the element types, the BQN value of a stored element,
    which values a type can hold, and the order of the types by size. *)
From Verif Require Import Base TagSpec NumSpec.

(** Element types, in the order of src/h.h:600-612 ([el_bit] .. [el_B]). *)
Inductive elt := EBit | EI8 | EI16 | EI32 | EF64 | EC8 | EC16 | EC32 | EB.
Definition elt_no (t : elt) : Z :=
  match t with EBit => 0 | EI8 => 1 | EI16 => 2 | EI32 => 3 | EF64 => 4 | EC8 => 5 | EC16 => 6 | EC32 => 7 | EB => 8 end.

(** A BQN element as far as this level can see it: a number (scaled value, see [fval]; 0 and -0 are the same number),
    the not-a-number, a character, or anything else (identified by its 64-bit pattern). *)
Inductive value := VNum (v : Z) | VNaN | VChr (n : Z) | VOth (w : Z).

Definition den (w : Z) : value :=
  if is_nan w then
    if 2 ^ 51 <=? fraction w then VNaN
    else if w / 2 ^ 48 =? 0x7FF1 then VChr (w mod 2 ^ 48) else VOth w
  else VNum (fval w).

(** The value of a stored element: a machine integer for the integer types, a code for the character types,
    a 64-bit pattern for [EF64] and [EB]. *)
Definition vof (t : elt) (z : Z) : value :=
  match t with
  | EBit | EI8 | EI16 | EI32 => VNum (z * one)
  | EC8 | EC16 | EC32 => VChr z
  | EF64 | EB => den z
  end.

(** What can be in the memory of an element of the type. Characters are Unicode code points. *)
Definition raw_ok (t : elt) (z : Z) : Prop :=
  match t with
  | EBit => 0 <= z <= 1
  | EI8 => -128 <= z <= 127
  | EI16 => -32768 <= z <= 32767
  | EI32 => -2147483648 <= z <= 2147483647
  | EF64 => word z /\ ~ ieee_signalling_nan z
  | EC8 => 0 <= z <= 255
  | EC16 => 0 <= z <= 65535
  | EC32 => 0 <= z < 1114112
  | EB => word z /\ forall n, den z = VChr n -> n < 1114112
  end.

(** The values that a type can represent. *)
Definition fits (t : elt) (v : value) : Prop :=
  match t with
  | EBit => v = VNum 0 \/ v = VNum one
  | EI8 => exists n, -128 <= n <= 127 /\ v = VNum (n * one)
  | EI16 => exists n, -32768 <= n <= 32767 /\ v = VNum (n * one)
  | EI32 => exists n, -2147483648 <= n <= 2147483647 /\ v = VNum (n * one)
  | EF64 => v = VNaN \/ exists x, v = VNum x
  | EC8 => exists n, n <= 255 /\ v = VChr n
  | EC16 => exists n, n <= 65535 /\ v = VChr n
  | EC32 => exists n, v = VChr n
  | EB => True
  end.
(** [t] is the smallest type that holds all of the values. *)
Definition smallest (t : elt) (vs : list value) : Prop :=
  Forall (fits t) vs /\ forall t', Forall (fits t') vs -> elt_no t <= elt_no t'.
Definition is_number (v : value) : Prop := v = VNaN \/ exists x, v = VNum x.
Definition is_char (v : value) : Prop := exists n, v = VChr n.
