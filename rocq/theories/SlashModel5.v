(** Model of Replicate of single bits by counts: BOOL_REP_XOR_SCAN, BOOL_REP_OVER and the paths of slash_c2 that use them, src/builtins/slash.c (SINGELI=0). *)
From Verif Require Import Base BitsModel BitsSpec SqueezeModel WidenModel SlashModel SlashModel2 SlashModel3 SlashModel4.
From Coq Require Import List.

(* -(u64)b, for b 0 or 1 *)
Definition spread (b : Z) : Z := to_u 64 (- b).

Section BitRep.
Variable junk : Z.
(** WV: the count of place j *)
Variables (WV : Z -> res Z) (xp : list Z).
(* slash.c:541-544 the inner loop of BOOL_REP_XOR_SCAN *)
Fixpoint xs_inner (fuel : nat) (e j ij xx xs : Z) (rp : list Z) : res (Z * Z * Z * Z * list Z) :=
  if e <=? ij then Ok (j, ij, xx, xs, rp) else
  match fuel with
  | O => UB
  | S f =>
    let xx := Z.shiftr xx 1 in
    let j := j + 1 in
    do (xx, xs) <- (if j mod 64 =? 0 then do v <- rdz xp (j / 64); Ok (Z.lxor (Z.lxor v (shl v 1)) xs, Z.shiftr v 63) else Ok (xx, xs));
    do w <- rdz rp (ij / 64);
    do rp <- wrz rp (ij / 64) (Z.lxor w (shl (spread (Z.land xx 1)) (ij mod 64)));
    do c <- WV j;
    xs_inner f e j (ij + c) xx xs rp
  end.
(* slash.c:540, 545: clearing the words of a block; carrying the last bit from word to word *)
Definition xs_clear (k0 n : Z) (rp : list Z) : res (list Z) := for_ (Z.to_nat n) k0 (fun i rp => wrz rp i 0) rp.
Definition xs_carry (k0 n js : Z) (rp : list Z) : res (Z * list Z) :=
  for_ (Z.to_nat n) k0 (fun i (st : Z * list Z) => let '(js, rp) := st in do w <- rdz rp i; let v := Z.lxor w js in do rp <- wrz rp i v; Ok (spread (Z.shiftr v 63), rp)) (js, rp).
(* slash.c:537-547 the outer loop, blocks of 2^12 bits *)
Fixpoint xs_outer (fuel ifuel : nat) (s k j ij xx xs js : Z) (rp : list Z) : res (list Z) :=
  match fuel with
  | O => UB
  | S f =>
    let e := if 2 ^ 12 <? s - k then k + 2 ^ 12 else s in
    let eb := (e - 1) / 64 + 1 in
    do rp <- xs_clear (k / 64) (eb - k / 64) rp;
    do (jx, rp) <- xs_inner ifuel e j ij xx xs rp;
    let '(j, ij, xx, xs) := jx in
    do (js, rp) <- xs_carry (k / 64) (eb - k / 64) js rp;
    if e =? s then Ok rp else xs_outer f ifuel s e j ij xx xs js rp
  end.
(* slash.c:534-547 BOOL_REP_XOR_SCAN(WV), n counts, s bits in the result *)
Definition rep_xor_scan (n s : Z) : res (list Z) :=
  do x0 <- rdz xp 0;
  do w0 <- WV 0;
  xs_outer (Z.to_nat (s / 2 ^ 12 + 1)) (Z.to_nat n) s 0 0 w0 (Z.lxor x0 (shl x0 1)) (Z.shiftr x0 63) (spread (Z.land x0 1)) (mem junk (BIT_N s)).

(* slash.c:549-564 BOOL_REP_OVER(WV, LEN) *)
Definition over_step (i : Z) (st : Z * Z * Z * Z * list Z) : res (Z * Z * Z * Z * list Z) :=
  let '(ri, rc, xc, j, rp) := st in
  do b <- bitp_get xp 0 i;
  let v := spread (Z.b2z b) in
  let rc := Z.lxor rc (shl (Z.lxor v xc) (ri mod 64)) in
  do c <- WV i;
  let ri := ri + c in
  let e := ri / 64 in
  if j <? e then
    do rp <- wrz rp j rc;
    do rp <- for_ (Z.to_nat (e - (j + 1))) (j + 1) (fun i rp => wrz rp i v) rp;
    Ok (ri, v, v, e, rp)
  else Ok (ri, rc, v, j, rp).
Definition rep_over (n s : Z) : res (list Z) :=
  do (st, rp) <- for_ (Z.to_nat n) 0 over_step (0, 0, 0, 0, mem junk (BIT_N s));
  let '(ri, rc, xc, j) := st in
  if negb (ri mod 64 =? 0) then wrz rp j rc else Ok rp.

(* slash.c:797-811: one count greater than 64 *)
Definition const_step (wv : Z) (i : Z) (st : Z * Z * Z * list Z) : res (Z * Z * Z * list Z) :=
  let '(ri, c, j, rp) := st in
  do w <- rdz xp (i / 64);
  let v := spread (Z.land (Z.shiftr w (i mod 64)) 1) in
  let r0 := Z.lxor c (shl (Z.lxor v c) (ri mod 64)) in
  let ri := ri + wv in
  let e := ri / 64 in
  do rp <- wrz rp (e - 1) v;
  do rp <- wrz rp j r0;
  do rp <- for_ (Z.to_nat (wv / 64 - 1)) (j + 1) (fun i rp => wrz rp i v) rp;
  Ok (ri, v, e, rp).
Definition rep_const_bits (wv n s : Z) : res (list Z) :=
  do (st, rp) <- for_ (Z.to_nat n) 0 (const_step wv) (0, 0, 0, mem junk (BIT_N s));
  let '(ri, c, j) := st in
  if negb (ri mod 64 =? 0) then wrz rp j c else Ok rp.
End BitRep.

Section C2Bits.
Variables (junk umax amax ub : Z) (sq : cnts -> cnts).
(** the bits of the result *)
Definition rbits (s : Z) (r : res (list Z)) : res (list bool) := do rp <- r; Ok (bits_of rp 0 s).
(* slash.c:640-725, array 𝕨, 𝕩 made of n cells of one bit. The path for doubles (673-685) goes through element-wise writing, as in SlashModel4 *)
Definition rep_arr_bits (c : cnts) (xp : list Z) (n : Z) : res (list bool) :=
  let wia := c_ia c in
  if wia =? 0 then Ok (bits_of xp 0 n) else
  if negb (wia =? n) then Err else
  match c with
  | CB w _ => do (rp, s) <- compress_bits junk w wia xp; Ok (bits_of rp 0 s)
  | CF _ => do s <- usum c; arrW_base umax amax 1 s c (bits_of xp 0 n)
  | CI _ _ =>
    do s <- usum c;
    if umax <=? s then Err else
    if s =? 0 then Ok [] else
    let c := if s <=? wia then sq c else c in
    match c with
    | CB w _ => do (rp, s) <- compress_bits junk w wia xp; Ok (bits_of rp 0 s)
    | _ =>
      let wp := map (fun e => match e with Some z => z | None => 0 end) (welts c) in
      rbits s (if s / 1024 <=? wia then rep_xor_scan junk (rdz wp) xp wia s else rep_over junk (rdz wp) xp wia s)
    end
  end.
(* slash.c:747-752, 786-811 constant 𝕨 *)
Definition rep_atom_bits (wv : Z) (xp : list Z) (n : Z) : res (list bool) :=
  if wv <? 0 then Err else
  if wv <=? 1 then (if (wv =? 1) || (n =? 0) then Ok (bits_of xp 0 n) else Ok []) else
  if n =? 0 then Ok (bits_of xp 0 n) else
  let s := n * wv in
  if 2 ^ ub <=? s then Err else
  rbits s (if wv <=? 64 then rep_xor_scan junk (fun _ => Ok wv) xp n s else rep_const_bits junk xp wv n s).
Definition slash_c2_bits (w : wspec) (xp : list Z) (n : Z) : res (list bool) :=
  match w with WArr c => rep_arr_bits c xp n | WAtom v => rep_atom_bits v xp n end.
End C2Bits.

(** Cells without elements: the result has only a number of cells. cellWidthLog gives 7 for them (arrFns.h:84-95), and no element is ever copied. *)
Section C2Empty.
Variables (umax amax ub : Z).
(* slash.c:422-441: compress returns reshapeToEmpty(x, wsum) *)
Definition compress_empty (w : list Z) (wia : Z) : res Z :=
  do st <- compress_start w wia;
  match st with SEmpty => Ok 0 | SAll => Ok wia | SRest _ _ wsum => Ok wsum end.
(* the counts are still tested one by one, slash.c:683 *)
Fixpoint slow_counts (cs : list (option Z)) (out : Z) : res Z := match cs with [] => Ok out | e :: cs => do c <- o2s umax e; slow_counts cs (out + c) end.
(* slash.c:640-692 with csz = 0: ria is 0 *)
Definition rep_arr_empty (c : cnts) (xlen : Z) : res Z :=
  let wia := c_ia c in
  if wia =? 0 then Ok xlen else
  if negb (wia =? xlen) then Err else
  match c with
  | CB w _ => compress_empty w wia
  | _ => do s <- usum c; if umax <=? s then Err else if amax <=? 0 then Err else do _ <- slow_counts (welts c) 0; Ok s
  end.
(* slash.c:747-771, 826-832 with csz = 0 *)
Definition rep_atom_empty (wv xlen : Z) : res Z :=
  if wv <? 0 then Err else
  if wv <=? 1 then (if (wv =? 1) || (xlen =? 0) then Ok xlen else Ok 0) else
  if xlen =? 0 then Ok xlen else
  if 2 ^ ub <=? xlen * wv then Err else Ok (xlen * wv).
Definition slash_c2_empty (w : wspec) (xlen : Z) : res Z := match w with WArr c => rep_arr_empty c xlen | WAtom v => rep_atom_empty v xlen end.
End C2Empty.
