(** Model of the bit-array primitives: src/core/numarr.h:24-64, src/utils/mut.h:113-150, src/utils/mut.c:178-194,
    src/builtins/fold.c:407-412, src/builtins/sort.c:6-19, src/builtins/arithm.c:13-15, src/utils/bits.c:97-250.
    Memory is a list of 64-bit words (each a Z in [0,2^64)); a pointer to a bit array is a word offset into it, so that the source
    and the target of a copy may be the same array. Access outside of the list is UB. *)
From Verif Require Import Base.

Definition w64 (x : Z) : Z := Z.land x (Z.ones 64).        (* truncation to u64 *)
Definition not64 (x : Z) : Z := Z.lxor x (Z.ones 64).       (* ~ *)
Definition shl (x k : Z) : Z := w64 (Z.shiftl x k).         (* << on u64, k<64 *)
Definition rdz (m : list Z) (i : Z) : res Z := if i <? 0 then UB else rd m (Z.to_nat i).
Definition wrz (m : list Z) (i : Z) (v : Z) : res (list Z) := if i <? 0 then UB else wr m (Z.to_nat i) v.

(* numarr.h:25 BIT_N *)
Definition BIT_N (ia : Z) : Z := Z.shiftr (ia + 63) 6.
(* numarr.h:33-35 bitp_get, :27-32 bitp_set. The code addresses byte n>>3, bit n&7; on a little-endian machine that is bit n&63 of word n>>6. *)
Definition bitp_get (m : list Z) (p n : Z) : res bool := do w <- rdz m (p + Z.shiftr n 6); Ok (Z.testbit w (Z.land n 63)).
Definition bitp_set (m : list Z) (p n : Z) (v : bool) : res (list Z) :=
  do w <- rdz m (p + Z.shiftr n 6);
  let b := shl 1 (Z.land n 63) in
  wrz m (p + Z.shiftr n 6) (if v then Z.lor w b else Z.land w (not64 b)).
(* numarr.h:36-41 *)
Definition bitp_l0 (m : list Z) (p ia : Z) : res Z :=
  if Z.land ia 63 =? 0 then Ok 0 else do w <- rdz m (p + Z.shiftr ia 6); Ok (Z.land w (shl 1 (Z.land ia 63) - 1)).
Definition bitp_l1 (m : list Z) (p ia : Z) : res Z :=
  if Z.land ia 63 =? 0 then Ok (Z.ones 64) else do w <- rdz m (p + Z.shiftr ia 6); Ok (Z.lor w (not64 (shl 1 (Z.land ia 63) - 1))).

(* numarr.h:45-50 bit_has *)
Definition vmask (v : bool) : Z := if v then 0 else Z.ones 64.   (* ~-(u64)v *)
Fixpoint has_loop (n : nat) (m : list Z) (i : Z) (w : Z) : res bool :=
  match n with
  | O => Ok false
  | S n => do a <- rdz m i; if Z.lxor a w =? 0 then has_loop n m (i+1) w else Ok true
  end.
Definition bit_has (m : list Z) (p ia : Z) (v : bool) : res bool :=
  let w := vmask v in
  let e := ia / 64 in let q := ia mod 64 in
  do b <- has_loop (Z.to_nat e) m p w;
  if b then Ok true
  else if q =? 0 then Ok false
  else do a <- rdz m (p + e); Ok (negb (Z.land (Z.lxor a w) (shl 1 q - 1) =? 0)).

(* __builtin_ctzll (0 is undefined behaviour) *)
Fixpoint ctz_loop (n : nat) (x : Z) : res Z :=
  match n with
  | O => UB
  | S n => if Z.testbit x 0 then Ok 0 else do r <- ctz_loop n (Z.shiftr x 1); Ok (r + 1)
  end.
Definition CTZ (x : Z) : res Z := ctz_loop 64 x.
(* numarr.h:51-60 bit_find *)
Fixpoint find_loop (n : nat) (m : list Z) (p i : Z) (w : Z) : res (option Z) :=
  match n with
  | O => Ok None
  | S n =>
    do a <- rdz m (p + i);
    let f := Z.lxor w a in
    if f =? 0 then find_loop n m p (i+1) w else do c <- CTZ f; Ok (Some (64 * i + c))
  end.
Definition bit_find (m : list Z) (p ia : Z) (v : bool) : res Z :=
  let w := vmask v in
  let e := ia / 64 in
  do r <- find_loop (Z.to_nat e) m p 0 w;
  match r with
  | Some i => Ok i
  | None =>
    let q := ia mod 64 in
    do a <- rdz m (p + e);
    do c <- CTZ (Z.lor (Z.lxor w a) (shl (Z.ones 64) q));
    Ok (Z.lor (ia - q) c)
  end.

(* __builtin_popcountll *)
Definition POPC (x : Z) : Z := fold_left (fun s i => s + (if Z.testbit x (Z.of_nat i) then 1 else 0)) (seq 0 64) 0.
(* fold.c:407-412 bit_sum *)
Fixpoint sum_loop (n : nat) (m : list Z) (p : Z) (r : Z) : res Z :=
  match n with O => Ok r | S n => do a <- rdz m p; sum_loop n m (p+1) (r + POPC a) end.
Definition bit_sum (m : list Z) (p am : Z) : res Z :=
  do r <- sum_loop (Z.to_nat (Z.shiftr am 6)) m p 0;
  if Z.land am 63 =? 0 then Ok r
  else do a <- rdz m (p + Z.shiftr am 6); Ok (r + POPC (shl a (Z.land (64 - am) 63))).

(* sort.c:6-19 bit_isSorted, where n is the length minus one *)
Definition bit_isSorted (m : list Z) (p : Z) (down : bool) (n : Z) : res bool :=
  let xia := n + 1 in
  do i <- bit_find m p xia (negb down);
  let iw := i / 64 in
  do mid <- rdz m (p + iw);
  let d := Z.lxor (if down then not64 mid else mid) (shl (Z.ones 64) (i mod 64)) in
  if iw =? xia / 64 then Ok (Z.land d (not64 (shl (Z.ones 64) (xia mod 64))) =? 0)
  else if d =? 0 then
    let o := iw + 1 in
    let l := xia - 64 * o in
    do j <- bit_find m (p + o) l down;
    Ok (j =? l)
  else Ok false.

(* arithm.c:13-15 bit_negatePtr: xp and rp are distinct arrays; the result words *)
Definition bit_negate (xs : list Z) : list Z := map not64 xs.

(* mut.h:113-150 bit_cpy; r and x are word offsets into the same memory *)
Section Cpy.
Variables (x dp df : Z).
Definition RDFo (m : list Z) (ti n : Z) : res Z := rdz m (x + (ti + dp + n)).
Definition RDFp (m : list Z) (ti : Z) : res Z := do a <- RDFo m ti 0; do b <- RDFo m ti 1; Ok (Z.lor (Z.shiftr a df) (shl b (64 - df))).
Definition READ (m : list Z) (ti : Z) : res Z := if df =? 0 then RDFo m ti 0 else RDFp m ti.
(* for (; ti<ei; ti++) r[ti] = READ *)
Fixpoint cpy_loop (n : nat) (m : list Z) (r ti : Z) : res (list Z) :=
  match n with O => Ok m | S n => do v <- READ m ti; do m <- wrz m (r + ti) v; cpy_loop n m r (ti+1) end.
(* r[ti] = (READ & m) | (r[ti] & ~m) *)
Definition blend (m : list Z) (r ti mask : Z) : res (list Z) :=
  do v <- READ m ti; do o <- rdz m (r + ti); wrz m (r + ti) (Z.lor (Z.land v mask) (Z.land o (not64 mask))).
End Cpy.
Definition bit_cpy (m : list Z) (r rs x xs l : Z) : res (list Z) :=
  let re := rs + l in
  let d := xs - rs in
  let ti := Z.shiftr rs 6 in
  let ei := Z.shiftr re 6 in
  let dp := Z.shiftr d 6 in
  let df := Z.land d 63 in
  if negb (ti =? ei) then
    do (m, ti) <- (if Z.land rs 63 =? 0 then Ok (m, ti) else
      let msk := shl 1 (Z.land rs 63) - 1 in
      do v <- READ x dp df m ti; do o <- rdz m (r + ti);
      do m <- wrz m (r + ti) (Z.lor (Z.land v (not64 msk)) (Z.land o msk));
      Ok (m, ti + 1));
    do m <- cpy_loop x dp df (Z.to_nat (ei - ti)) m r ti;
    if Z.land re 63 =? 0 then Ok m
    else blend x dp df m r ei (shl 1 (Z.land re 63) - 1)
  else if rs =? re then Ok m
  else blend x dp df m r ti (Z.lxor (shl 1 (Z.land rs 63) - 1) (shl 1 (Z.land re 63) - 1)).

(* mut.c:178-194 m_fillG_bit *)
Fixpoint fill_loop (n : nat) (m : list Z) (p : Z) (v : Z) : res (list Z) :=
  match n with O => Ok m | S n => do m <- wrz m p v; fill_loop n m (p+1) v end.
Definition setmask (m : list Z) (i : Z) (v : bool) (on : Z) : res (list Z) :=
  do o <- rdz m i; wrz m i (if v then Z.lor o on else Z.land o (not64 on)).
Definition bit_fill (m : list Z) (p ms : Z) (v : bool) (l : Z) : res (list Z) :=
  let me := ms + l in
  if Z.shiftr ms 6 =? Z.shiftr me 6 then
    setmask m (p + Z.shiftr ms 6) v (w64 (shl 1 (Z.land me 63) - shl 1 (Z.land ms 63)))
  else
    let vx := if v then Z.ones 64 else 0 in
    let m0 := shl 1 (Z.land ms 63) - 1 in
    do m <- setmask m (p + Z.shiftr ms 6) v (not64 m0);
    do m <- fill_loop (Z.to_nat (Z.shiftr me 6 - (Z.shiftr ms 6 + 1))) m (p + Z.shiftr ms 6 + 1) vx;
    setmask m (p + Z.shiftr me 6) v (shl 1 (Z.land me 63) - 1).
