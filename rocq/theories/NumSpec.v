(** Meaning of binary64 patterns as numbers, and comparison of them; nothing here models repository code.
    [fval u] is the value of the pattern times 2^1074, which is an integer for every finite double; infinities get a value beyond all finite ones. *)
From Verif Require Import Base TagSpec.

Definition is_nan (u : Z) : bool := (exponent u =? 2047) && negb (fraction u =? 0).
Definition fmag (u : Z) : Z := if exponent u =? 0 then fraction u else (2 ^ 52 + fraction u) * 2 ^ (exponent u - 1).
Definition fval (u : Z) : Z := if sign u =? 1 then - fmag u else fmag u.
Definition one : Z := 2 ^ 1074.
(** IEEE comparison *)
Definition feq (a b : Z) : bool := negb (is_nan a) && negb (is_nan b) && (fval a =? fval b).
Definition flt (a b : Z) : bool := negb (is_nan a) && negb (is_nan b) && (fval a <? fval b).
Definition fle (a b : Z) : bool := negb (is_nan a) && negb (is_nan b) && (fval a <=? fval b).
(** the double of an integer below 2^53 *)
Definition of_int (n : Z) : Z :=
  if n =? 0 then 0 else
  let a := Z.abs n in let k := Z.log2 a in
  (if n <? 0 then 2 ^ 63 else 0) + (k + 1023) * 2 ^ 52 + (a * 2 ^ (52 - k) - 2 ^ 52).
(** u is the number n *)
Definition is_int (u n : Z) : Prop := is_nan u = false /\ fval u = n * one.
(** truncation towards zero *)
Definition ftrunc (u : Z) : Z := Z.quot (fval u) one.
