(** Model of the value representation of src/h.h (NaN boxing). A value ([union B], src/h.h:206-209) is its 64-bit pattern. *)
From Verif Require Import Base.

Definition M64 : Z := 2 ^ 64.
(** C unsigned 64-bit arithmetic *)
Definition u64 (x : Z) : Z := x mod M64.
Definition shl64 (x k : Z) : Z := u64 (x * 2 ^ k).
Definition shr64 (x k : Z) : Z := x / 2 ^ k.

(* src/h.h:186-197 *)
Definition C32_TAG := 0x7FF1. Definition TAG_TAG := 0x7FF2. Definition VAR_TAG := 0x7FF3.
Definition EXT_TAG := 0x7FF4. Definition RAW_TAG := 0x7FF5.
Definition MD1_TAG := 0xFFF2. Definition MD2_TAG := 0xFFF3. Definition FUN_TAG := 0xFFF4.
Definition NSP_TAG := 0xFFF5. Definition OBJ_TAG := 0xFFF6. Definition ARR_TAG := 0xFFF7.
Definition VAL_TAG := 0x1FFE.

(* src/h.h:198-203: ftag, tagu64 / tag *)
Definition ftag (t : Z) : Z := shl64 t 48.
Definition tagu64 (v t : Z) : Z := Z.lor v (ftag t).
(* src/h.h:202: c(T,X) masks the low 48 bits *)
Definition untag (u : Z) : Z := Z.land u 0xFFFFFFFFFFFF.

(* src/h.h:461-479 *)
Definition hasTag (u t : Z) : bool := shr64 u 48 =? t.
Definition isFun u := hasTag u FUN_TAG. Definition isArr u := hasTag u ARR_TAG.
Definition isC32 u := hasTag u C32_TAG. Definition isVar u := hasTag u VAR_TAG.
Definition isExt u := hasTag u EXT_TAG. Definition isTag u := hasTag u TAG_TAG.
Definition isMd1 u := hasTag u MD1_TAG. Definition isMd2 u := hasTag u MD2_TAG.
Definition isMd u := shr64 u 49 =? MD2_TAG / 2.
Definition isNsp u := hasTag u NSP_TAG. Definition isObj u := hasTag u OBJ_TAG.
(* src/h.h:474 *)
Definition isVal (u : Z) : bool := u64 (u - (shl64 VAL_TAG 51 + 1)) <? shl64 1 51 - 1.
(* src/h.h:475 *)
Definition isF64 (u : Z) : bool := shl64 1 52 - 2 <=? u64 (shl64 u 1 - (shl64 0xFFE 52 + 2)).
Definition isAtm u := negb (isArr u).
Definition isCallable (u : Z) : bool := let t := shr64 u 48 in (MD1_TAG <=? t) && (t <=? FUN_TAG).
(* src/h.h:504-505 q_c8 q_c16 *)
Definition q_c8 (u : Z) : bool := shr64 u 8 =? shl64 C32_TAG 40.
Definition q_c16 (u : Z) : bool := shr64 u 16 =? shl64 C32_TAG 32.
(* src/h.h:485 m_c32, :515 o2cG *)
Definition m_c32 (n : Z) : Z := tagu64 n C32_TAG.
Definition o2cG (u : Z) : Z := u mod 2 ^ 32.
