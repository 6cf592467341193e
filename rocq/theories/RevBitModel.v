(** Model of Reverse of a list of bits: src/builtins/sfns.c 1175-1186, src/core/stuff.h 12-18. *)
From Coq Require Import ZArith List.
Import ListNotations.
From Verif Require Import Base TransModel TransBitModel.
Open Scope Z_scope.
(* __builtin_bswap64: byte [i] becomes byte [7-i] *)
Definition bswap64 (x : Z) : Z := fold_left (fun a i => Z.lor a (Z.shiftl (Z.land (Z.shiftr x (8 * i)) 255) (56 - 8 * i))) [0; 1; 2; 3; 4; 5; 6; 7] 0.
(* one line of stuff.h:14-16 *)
Definition swap (c lo hi sh : Z) : Z := Z.lor (u64 (Z.shiftl (Z.land c lo) sh)) (Z.shiftr (Z.land c hi) sh).
(* stuff.h:12-18 bit_reverse64 *)
Definition bit_reverse64 (x : Z) : Z :=
  let c := bswap64 x in
  let c := swap c 0x0f0f0f0f0f0f0f0f 0xf0f0f0f0f0f0f0f0 4 in
  let c := swap c 0x3333333333333333 0xcccccccccccccccc 2 in
  swap c 0x5555555555555555 0xaaaaaaaaaaaaaaaa 1.
(* sfns.c:1178 *)
Definition rev_words (g : nat) (xp rp : list Z) : res (list Z) := loop g 0 (fun i rp => do v <- rd xp (g - 1 - i); wr rp i (bit_reverse64 v)) rp.
(* sfns.c:1181 *)
Definition shift_words (e : nat) (sh : Z) (rp : list Z) : res (list Z) := loop e 0 (fun i rp => do a <- rd rp i; do b <- rd rp (i + 1); wr rp i (Z.lor (Z.shiftr a sh) (u64 (Z.shiftl b (64 - sh))))) rp.
(* sfns.c:1175-1185; [n] bits (at least two), [rp] the new result memory with anything in it; (-n)&63 is (64 - n mod 64) mod 64 *)
Definition reverse_bits (n : nat) (xp rp : list Z) : res (list Z) :=
  let g := bit_n n in
  if (g =? 0)%nat then UB else
  let e := (g - 1)%nat in
  do rp <- rev_words g xp rp;
  if (n mod 64 =? 0)%nat then Ok rp else
  let sh := (- Z.of_nat n) mod 64 in
  do rp <- shift_words e sh rp;
  do v <- rd rp e;
  wr rp e (Z.shiftr v sh).
