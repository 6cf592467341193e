(** IEEE-754 binary64 bit patterns, independent of the model: sign, 11 exponent bits, 52 fraction bits. *)
From Verif Require Import Base.

Definition word (u : Z) : Prop := 0 <= u < 2 ^ 64.
Definition exponent (u : Z) : Z := (u / 2 ^ 52) mod 2 ^ 11.
Definition fraction (u : Z) : Z := u mod 2 ^ 52.
Definition sign (u : Z) : Z := u / 2 ^ 63.

Definition ieee_finite (u : Z) : Prop := exponent u <> 2047.
Definition ieee_inf (u : Z) : Prop := exponent u = 2047 /\ fraction u = 0.
Definition ieee_nan (u : Z) : Prop := exponent u = 2047 /\ fraction u <> 0.
Definition ieee_quiet_nan (u : Z) : Prop := ieee_nan u /\ 2 ^ 51 <= fraction u.
Definition ieee_signalling_nan (u : Z) : Prop := ieee_nan u /\ fraction u < 2 ^ 51.
