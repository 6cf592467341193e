(** Model of Indices and Replicate: src/builtins/slash.c (portable code, SINGELI=0), and usum of src/builtins/fold.c.
    Results are written to memory of the size that the code allocates, with arbitrary contents [junk] before.
    Reference counts, fills and shapes are left out; elements or cells of the argument are the units that are copied. *)
From Verif Require Import Base BitsModel SqueezeModel WidenModel.
From Coq Require Import List.

Section Where.
Variable src : list Z.  (* the words of the bits *)
Variable tr : Z -> Z.   (* conversion to the type of the result *)

(* slash.c:111-116 WHERE_DENSE(SRC, DST, LEN, OFF); SRC is at word p, DST at place r *)
Definition dense_byte (v0 base : Z) (st : list Z * Z) : res (list Z * Z) :=
  do st <- for_ 8 0 (fun k (st : Z * (list Z * Z)) => let '(v, (dst, r)) := st in do dst <- wrz dst r (tr (base + k)); Ok (Z.shiftr v 1, (dst, r + Z.land v 1))) (v0, st);
  Ok (snd st).
Definition where_dense (p len off : Z) (dst : list Z) (r : Z) : res (list Z * Z) :=
  for_ (Z.to_nat ((len + 7) / 8)) 0 (fun ii st =>
    do w <- rdz src (p + ii / 8);
    dense_byte (Z.land (Z.shiftr w (8 * (ii mod 8))) 255) (off + 8 * ii) st) (dst, r).

(* slash.c:119-122 WHERE_SPARSE(X, R, S, I0): X is at word p, R at place r *)
Fixpoint sparse_word (fuel : nat) (v base : Z) (dst : list Z) (r j : Z) : res (list Z * Z) :=
  if v =? 0 then Ok (dst, j) else
  match fuel with
  | O => UB
  | S f => do c <- CTZ v; do dst <- wrz dst (r + j) (tr (base + c)); sparse_word f (Z.land v (v - 1)) base dst r (j + 1)
  end.
Fixpoint where_sparse (fuel : nat) (p s : Z) (dst : list Z) (r ii j : Z) : res (list Z) :=
  if s <=? j then Ok dst else
  match fuel with
  | O => UB
  | S f => do v <- rdz src (p + ii); do (dst, j) <- sparse_word 64 v (ii * 64) dst r j; where_sparse f p s dst r (ii + 1) j
  end.

(* slash.c:126-139 bsp_fill; buf is at place b of a memory of 32-bit values *)
Definition bsp_max : Z := 2 ^ 11 - 64.
Definition bsp_add (a p : Z) (b : Z) (st : list Z * Z) : res (list Z * Z) :=
  let '(buf, j) := st in do o <- rdz buf (b + j); do buf <- wrz buf (b + j) ((o + Z.lor (a * 2 ^ 24) p) mod 2 ^ 32); Ok (buf, j + POPC p).
Definition bsp_fill (p len : Z) (buf : list Z) (b : Z) : res (list Z * Z) :=
  for_ (Z.to_nat ((len + 63) / 64)) 0 (fun i st =>
    do u <- rdz src (p + i);
    do st <- bsp_add 2 (Z.land u (2 ^ 24 - 1)) b st; let u := Z.shiftr u 24 in
    do st <- bsp_add 3 (Z.land u (2 ^ 24 - 1)) b st; let u := Z.shiftr u 24 in
    bsp_add 3 u b st) (buf, 0).
(* slash.c:140-146 BSP_WRITE. buf[j] is read before dst[j] is written, and where they share memory dst[j] lies in buf[0..j]: so buf is as after filling. *)
Definition bsp_write (buf : list Z) (b : Z) (sum off : Z) (dst : list Z) (r : Z) : res (list Z) :=
  do st <- for_ (Z.to_nat sum) 0 (fun j (st : Z * list Z) => let '(t, dst) := st in
    do a <- rdz buf (b + j);
    let t := (t + a) mod 2 ^ 64 in
    do c <- CTZ (t mod 2 ^ 32);
    do dst <- wrz dst (r + j) (tr (8 * Z.shiftr t 24 + c));
    Ok (Z.land t (t - 1), dst)) ((off * 2 ^ 21 - 2 * 2 ^ 24) mod 2 ^ 64, dst);
  Ok (snd st).
Definition zero_buf (buf : list Z) (b n : Z) : res (list Z) := for_ (Z.to_nat n) 0 (fun j buf => wrz buf (b + j) 0) buf.
End Where.

Section Blocks.
Variable junk : Z.
Definition mem (n : Z) : list Z := repeat junk (Z.to_nat n).
(* slash.c:147-151 bsp_block_u32: buf and dst are the same memory *)
Definition bsp_block (src : list Z) (tr : Z -> Z) (p len sum off : Z) (dst : list Z) (r : Z) : res (list Z) :=
  do buf <- zero_buf dst r sum;
  do (buf, _) <- bsp_fill src p len buf r;
  bsp_write tr buf r sum off buf r.
(* slash.c:152-164 bsp_u16. buf is cleared again while it is read *)
Fixpoint bsp_u16 (fuel : nat) (src : list Z) (len i : Z) (buf dst : list Z) (r : Z) : res (list Z) :=
  if len <=? i then Ok dst else
  match fuel with
  | O => UB
  | S f =>
    let b := if len - i <? bsp_max then len - i else bsp_max in
    do (buf, bs) <- bsp_fill src (i / 64) b buf 0;
    do dst <- bsp_write (to_u 16) buf 0 bs i dst r;
    do buf <- zero_buf buf 0 bs; do buf <- wrz buf bs 0;
    bsp_u16 f src len (i + b) buf dst (r + bs)
  end.
(* slash.c:166-181 where_block_u16: the positions of set bits of a block at word p; memory for [cap] values of 16 bits, which is also used as that for cap/2 values of 32 bits *)
Definition where_block (src : list Z) (p len sum cap : Z) : res (list Z) :=
  let tr := to_u 16 in
  do d <- (if len / 4 + len / 8 <=? sum then do (d, _) <- where_dense src tr p len 0 (mem cap) 0; Ok d
           else if len / 128 <=? sum then
             do buf <- zero_buf (mem (cap / 2)) 0 sum; do (buf, _) <- bsp_fill src p len buf 0; bsp_write tr buf 0 sum 0 (mem cap) 0
           else where_sparse src tr (S (length src)) p sum (mem cap) 0 0 0);
  Ok (firstn (Z.to_nat sum) d).
(* slash.c:270-300 where, at most 2^31 bits *)
Fixpoint where_i32 (fuel : nat) (src : list Z) (xia s i : Z) (dst : list Z) (rq : Z) : res (list Z) :=
  if xia <=? i then Ok dst else
  match fuel with
  | O => UB
  | S f =>
    let tr := to_s 32 in
    let last := xia - i <? bsp_max in
    let b := if last then xia - i else bsp_max in
    do bs <- (if last then Ok (s - rq) else bit_sum src (i / 64) b);
    do dst <- (if b / 2 <=? bs then do (d, _) <- where_dense src tr (i / 64) b i dst rq; Ok d
               else if b / 256 <=? bs then bsp_block src tr (i / 64) b bs i dst rq
               else where_sparse src tr (S (length src)) 0 bs dst rq (i / 64) 0);
    where_i32 f src xia s (i + b) dst (rq + bs)
  end.
(* slash.c:301-314 where, more than 2^31 bits; the results are whole numbers in doubles *)
Fixpoint where_f64 (fuel : nat) (src : list Z) (xia s i : Z) (out : list Z) : res (list Z) :=
  if xia <=? i then Ok out else
  match fuel with
  | O => UB
  | S f =>
    let last := xia - i <? bsp_max in
    let b := if last then xia - i else bsp_max in
    do bs <- (if last then Ok (s - Z.of_nat (length out)) else bit_sum src (i / 64) b);
    do l <- where_block src (i / 64) b bs bsp_max;
    where_f64 f src xia s (i + b) (out ++ map (fun k => i + k) l)
  end.
(* slash.c:241, 426: clearing the bits after the last one *)
Definition mask_tail (src : list Z) (n : Z) : res (list Z) :=
  if n mod 64 =? 0 then Ok src else do w <- rdz src (n / 64); wrz src (n / 64) (Z.land w (shl 1 (n mod 64) - 1)).
(* slash.c:238-316 where: the positions of the s set bits *)
Definition where_ (src : list Z) (xia s : Z) : res (list Z) :=
  do src <- mask_tail src xia;
  let fuel := S (length src) in
  if xia <=? 128 then where_sparse src (to_s 8) fuel 0 s (mem s) 0 0 0
  else if xia <=? 32768 then
    if xia / 4 + xia / 8 <=? s then do (d, _) <- where_dense src (to_s 16) 0 xia 0 (mem (s + 1)) 0; Ok (firstn (Z.to_nat s) d)
    else if xia / 128 <=? s then
      do d <- bsp_u16 fuel src xia 0 (repeat 0 (Z.to_nat (Z.min bsp_max s)) ++ [junk]) (mem s) 0; Ok (map (to_s 16) d)
    else where_sparse src (to_s 16) fuel 0 s (mem s) 0 0 0
  else if xia <=? 2 ^ 31 then do d <- where_i32 fuel src xia s 0 (mem (s + 1)) 0; Ok (firstn (Z.to_nat s) d)
  else where_f64 fuel src xia s 0 [].
End Blocks.
