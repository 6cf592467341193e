(** Model of Transpose of a two-row table of bits: src/builtins/transpose.c (without FAST_PDEP). *)
From Verif Require Import Base.
From Coq Require Import ZArith List.
Import ListNotations.
Open Scope Z_scope.
Definition u64 (v : Z) : Z := v mod 2 ^ 64.
(* transpose.c:84 STEP *)
Definition step (v m sh : Z) : Z := Z.land (Z.lor v (u64 (Z.shiftl v sh))) m.
(* transpose.c:85-90 EXPAND *)
Definition expand (v : Z) : Z :=
  let v := step v 0x0000ffff0000ffff 16 in
  let v := step v 0x00ff00ff00ff00ff 8 in
  let v := step v 0x0f0f0f0f0f0f0f0f 4 in
  let v := step v 0x3333333333333333 2 in
  step v 0x5555555555555555 1.
(* ((u32* )x)[i] of an array of 64-bit words, low half first *)
Definition rd32 (x : list Z) (i : nat) : res Z := do v <- rd x (i / 2)%nat; Ok (Z.shiftr v (32 * Z.of_nat (i mod 2)) mod 2 ^ 32).
(* BIT_N *)
Definition bit_n (n : nat) : nat := ((n + 63) / 64)%nat.
(* transpose.c:80-97 the loop of interleave_bits; [n] words to go, from word [i] *)
Fixpoint inter (n i : nat) (x0 x1 rp : list Z) : res (list Z) :=
  match n with
  | O => Ok rp
  | S n => do a <- rd32 x0 i; do b <- rd32 x1 i; do rp <- wr rp i (Z.lor (expand a) (u64 (Z.shiftl (expand b) 1))); inter n (i + 1)%nat x0 x1 rp
  end.
(* transpose.c:188-192: [x0] the words of 𝕩, [x1] the words of the slice that is its second row, [ia] elements in all; result memory of bit_n ia words with anything in it *)
Definition interleave_bits (rp x0 x1 : list Z) (ia : nat) : res (list Z) := inter (bit_n ia) 0 x0 x1 rp.
