(** Model of src/utils/bits.c:97-247: unaligned reads, the bit appender, bitnarrow and bitwiden (the paths without PDEP and without Singeli),
    and the sizes chosen by widenBitArr (bits.c:251-280).
    Arrays are lists of 64-bit words (little-endian: element i of width w is bits i*w .. i*w+w-1). *)
From Verif Require Import Base BitsModel.

(* the memory as one little-endian number *)
Fixpoint memZ (m : list Z) : Z := match m with [] => 0 | w :: m => w + 2^64 * memZ m end.
(* a load of n bits at bit offset off (byte-aligned in the code); outside of the array is UB *)
Definition ldbits (m : list Z) (off n : Z) : res Z :=
  if (off <? 0) || (64 * Z.of_nat (length m) <? off + n) then UB else Ok (Z.land (Z.shiftr (memZ m) off) (Z.ones n)).
(* a store of an n-bit element (n in 8,16,32,64) at bit offset off, a multiple of n *)
Definition stbits (m : list Z) (off n v : Z) : res (list Z) :=
  do w <- rdz m (off / 64);
  wrz m (off / 64) (Z.lor (Z.land w (not64 (shl (Z.ones n) (off mod 64)))) (shl (Z.land v (Z.ones n)) (off mod 64))).

(* bits.c:97-108 rbuu64 *)
Definition rbuu64 (p : list Z) (off : Z) : res Z :=
  let p0 := Z.shiftr off 6 in let m0 := Z.land off 63 in
  do v0 <- rdz p p0; do v1 <- rdz p (p0 + 1);
  Ok (w64 (Z.shiftr (Z.lor v0 (Z.shiftl v1 64)) m0)).
(* bits.c:109-111 rbuu58 *)
Definition rbuu58 (p : list Z) (off : Z) : res Z := do v <- ldbits p (8 * Z.shiftr off 3) 64; Ok (Z.shiftr v (Z.land off 7)).

(* bits.c:113-132 ABState; the target array, the position in it, tmp and off *)
Record ABState : Type := mkAB { ab_mem : list Z; ab_ptr : Z; ab_tmp : Z; ab_off : Z }.
Definition ab_new (r : list Z) : ABState := mkAB r 0 0 0.
Definition ab_done (s : ABState) : res (list Z) := if ab_off s =? 0 then Ok (ab_mem s) else wrz (ab_mem s) (ab_ptr s) (ab_tmp s).
Definition ab_add (s : ABState) (val count : Z) : res ABState :=
  let off0 := ab_off s in
  let off1 := off0 + count in
  let tmp := Z.lor (ab_tmp s) (shl val off0) in
  if 64 <=? off1 then
    do r <- wrz (ab_mem s) (ab_ptr s) tmp;
    Ok (mkAB r (ab_ptr s + 1) (if off0 =? 0 then 0 else Z.shiftr val (64 - off0)) (Z.land off1 63))
  else Ok (mkAB (ab_mem s) (ab_ptr s) tmp (Z.land off1 63)).

Fixpoint for_ {S : Type} (n : nat) (i : Z) (f : Z -> S -> res S) (s : S) : res S :=
  match n with O => Ok s | S n => do s <- f i s; for_ n (i + 1) f s end.

(* bits.c:136-186 bitnarrow. r and x are different arrays *)
Definition bitnarrow (r : list Z) (rcsz : Z) (x : list Z) (xcsz cam : Z) : res (list Z) :=
  do s <- (if (xcsz <=? 64) && (Z.land xcsz (xcsz - 1) =? 0) then
    if (xcsz =? 8) || (xcsz =? 16) || (xcsz =? 32) || (xcsz =? 64) then
      for_ (Z.to_nat cam) 0 (fun i s => do v <- ldbits x (i * xcsz) xcsz; ab_add s v rcsz) (ab_new r)
    else UB
  else
    let rfu64 := Z.shiftr rcsz 6 in
    let msk := shl 1 (Z.land rcsz 63) - 1 in
    for_ (Z.to_nat cam) 0 (fun i s =>
      do s <- for_ (Z.to_nat rfu64) 0 (fun j s => do v <- ldbits x (i * (8 * Z.shiftr xcsz 3) + 64 * j) 64; ab_add s v 64) s;
      do v <- ldbits x (i * (8 * Z.shiftr xcsz 3) + 64 * rfu64) 64;
      ab_add s (Z.land v msk) (Z.land rcsz 63)) (ab_new r));
  ab_done s.

(* bits.c:188-247 bitwiden; COPY_TO_FROM from bit to i8/i16/i32 and from c8/c16 to c16/c32 zero-extends each element *)
Definition bitwiden (r : list Z) (rcsz : Z) (x : list Z) (xcsz cam : Z) : res (list Z) :=
  if (rcsz <=? 32) && (Z.land xcsz (xcsz - 1) =? 0) && ((xcsz =? 1) || (xcsz =? 8) || (xcsz =? 16)) then
    for_ (Z.to_nat cam) 0 (fun i r => do v <- ldbits x (i * xcsz) xcsz; stbits r (i * rcsz) rcsz v) r
  else if rcsz <=? 64 then
    let tmsk := shl 1 xcsz - 1 in
    if (rcsz =? 8) || (rcsz =? 16) || (rcsz =? 32) then
      for_ (Z.to_nat cam) 0 (fun i r => do v <- rbuu58 x (i * xcsz); stbits r (i * rcsz) rcsz (Z.land v tmsk)) r
    else if rcsz =? 64 then
      for_ (Z.to_nat cam) 0 (fun i r => do v <- rbuu64 x (i * xcsz); stbits r (i * rcsz) rcsz (Z.land v tmsk)) r
    else UB
  else
    let pfu64 := Z.shiftr xcsz 6 in
    let msk := shl 1 (Z.land xcsz 63) - 1 in
    for_ (Z.to_nat cam) 0 (fun i r =>
      do r <- for_ (Z.to_nat pfu64) 0 (fun j r => do v <- rbuu64 x (i * xcsz + j * 64); wrz r (i * Z.shiftr rcsz 6 + j) v) r;
      do v <- rbuu64 x (i * xcsz + pfu64 * 64);
      wrz r (i * Z.shiftr rcsz 6 + pfu64) (Z.land v msk)) r.

(* bits.c:254-261: the cell width chosen by widenBitArr *)
Definition widenSize (pcsz : Z) : Z :=
  if pcsz <=? 8 then 8 else if pcsz <=? 16 then 16 else if pcsz <=? 32 then 32 else Z.land (pcsz + 63) (Z.lnot 63).
(* bits.c:264-277: number of elements requested for the result (cam and ncsz are usz, 32 bits wide by default, so the product wraps),
   and number of bits that bitwiden then writes *)
Definition widenAlloc (pcsz cam : Z) : Z := (cam * widenSize pcsz) mod 2^32.
Definition widenWritten (pcsz cam : Z) : Z := cam * widenSize pcsz.
