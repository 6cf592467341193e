(** What number formatting and parsing must do, independent of the code.

    Doubles are handled by their bits without the sign, 0 .. [inf_bits].  To stay in the integers all values are scaled by
    2^1074, which makes every finite double an integer. *)
From Verif Require Import Base.
Open Scope Z_scope.

Definition inf_bits : Z := 2047 * 2 ^ 52.
(** 2^1074 times the double with these bits (IEEE 754 binary64; the infinity counts as 2^1024, as IEEE 754 prescribes for
    deciding when a result overflows) *)
Definition dval (b : Z) : Z :=
  if b / 2 ^ 52 =? 0 then b mod 2 ^ 52 else (2 ^ 52 + b mod 2 ^ 52) * 2 ^ (b / 2 ^ 52 - 1).

(** [b] is the double nearest to the scaled rational number [n/d], to even on a tie *)
Definition rounds_to (n d b : Z) : Prop :=
  0 <= b <= inf_bits /\
  forall b', 0 <= b' <= inf_bits -> b' <> b ->
    Z.abs (n - d * dval b) < Z.abs (n - d * dval b') \/
    (Z.abs (n - d * dval b) = Z.abs (n - d * dval b') /\ Z.even b = true).

(** [b] is the double nearest to the decimal [m * 10^e] *)
Definition nearest (m e b : Z) : Prop :=
  rounds_to (m * 10 ^ Z.max e 0 * 2 ^ 1074) (10 ^ Z.max (- e) 0) b.

(** ** Texts *)
Definition digit (c : Z) : Prop := 48 <= c <= 57.
(** the integer written by a list of digits *)
Definition number (ds : list Z) : Z := fold_left (fun a c => 10 * a + (c - 48)) ds 0.

(** exponent part: nothing, or e or E, an optional sign, and at least one digit *)
Inductive exponent_text : list Z -> Z -> Prop :=
| no_exp : exponent_text [] 0
| exp_plain c ds : c = 101 \/ c = 69 -> ds <> [] -> Forall digit ds -> exponent_text (c :: ds) (number ds)
| exp_plus c ds : c = 101 \/ c = 69 -> ds <> [] -> Forall digit ds -> exponent_text (c :: 43 :: ds) (number ds)
| exp_minus c ds : c = 101 \/ c = 69 -> ds <> [] -> Forall digit ds -> exponent_text (c :: 45 :: ds) (- number ds).

(** mantissa: digits, with at most one dot before, between or after them: (text, digits, digits behind the dot) *)
Inductive mantissa_text : list Z -> list Z -> Z -> Prop :=
| mant_int ds : ds <> [] -> Forall digit ds -> mantissa_text ds ds 0
| mant_frac a b : a ++ b <> [] -> Forall digit a -> Forall digit b ->
    mantissa_text (a ++ 46 :: b) (a ++ b) (Z.of_nat (length b)).

(** the text writes the decimal [(-1)^neg * m * 10^e]; [m] is the integer of all written digits *)
Definition numeral (t : list Z) (neg : bool) (m e : Z) : Prop :=
  exists tm te ds f x,
    t = (if neg then [45] else []) ++ tm ++ te /\
    mantissa_text tm ds f /\ exponent_text te x /\ m = number ds /\ e = x - f.

(** a double with its sign *)
Definition signed_bits (neg : bool) (b : Z) : Z := if neg then 2 ^ 63 + b else b.
(** texts are printed with BQN's high minus; the parser takes the ASCII one *)
Definition ascii (c : Z) : Z := if c =? 175 then 45 else c.
