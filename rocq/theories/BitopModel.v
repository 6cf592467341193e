(** Model of src/builtins/bit.c: •bit._cast (26-167), •bit._not and •bit._neg (169-252), •bit._and, _or, _xor, _add, _sub and _mul (254-375);
    the paths without Singeli.
    An array is its shape, its element count field and its data as 64-bit words (little-endian). Its elements have been stored at the width
    the modifier's operand asks for (convert, bit.c:52-60, is not modelled beyond the widths it accepts). Reads and writes of whole words
    at the end of the data are taken to be inside of the allocation, which is a multiple of 64 bits here. *)
From Verif Require Import Base BitsModel SqueezeModel WidenModel.

Record barr : Type := mkB { b_sh : list Z; b_ia : Z; b_mem : list Z }.

(* bit.c:30-50 getCastType: an element of 𝕗 of •bit._cast is a width or a width with a type letter; the widths accepted *)
Inductive ctype : Type := CNum (s : Z) | CTyped (s : Z) (t : Z).
Definition cast_width (e : ctype) : res Z :=
  match e with
  | CNum s => if (s =? 1) || (s =? 8) || (s =? 16) || (s =? 32) || (s =? 64) then Ok s else Err
  | CTyped s t =>
    if (t =? 99) || (t =? 105) then (if (s =? 8) || (s =? 16) || (s =? 32) then Ok s else Err)     (* 'c', 'i' *)
    else if t =? 117 then (if s =? 1 then Ok s else Err)                                           (* 'u' *)
    else if t =? 102 then (if s =? 64 then Ok s else Err)                                          (* 'f' *)
    else Err
  end.
(* bit.c:52-60 convert and bit.c:70-78 typeOfCast: the widths with a storage type *)
Definition data_width (s : Z) : res unit := if (s =? 1) || (s =? 8) || (s =? 16) || (s =? 32) || (s =? 64) then Ok tt else Err.

(* core/arrFns.h shProd: the product in usz *)
Definition shProdU (sh : list Z) : Z := fold_left (fun p e => to_u 32 (p * e)) sh 1.
(* bit.c:79-101 set_bit_result; the copying of a shared shape object is not modelled *)
Definition set_bit_result (mem : list Z) (sh : list Z) (rl : Z) : barr :=
  if Z.of_nat (length sh) <=? 1 then mkB [rl] rl mem
  else mkB (removelast sh ++ [rl]) (to_u 32 (rl * shProdU (removelast sh))) mem.

(* bit.c:103-151 bitcast_impl; the data is kept, whether in place, as a slice or copied. The type letters' only effect on the data is the type of the result *)
Definition bitcast_impl (el0 el1 : ctype) (x : barr) : res barr :=
  if Z.of_nat (length (b_sh x)) <? 1 then Err else
  do xs <- cast_width el0;
  do rs <- cast_width el1;
  let s := xs * last (b_sh x) 0 in
  let rl := s / rs in
  if negb (rl * rs =? s) then Err else
  if 2^32 - 1 <=? rl then Err else
  do _u <- data_width xs;
  do _u <- data_width rs;
  Ok (set_bit_result (b_mem x) (b_sh x) rl).
(* bit.c:153-167 bitcast_c1, bitcast_im: 𝕗 is from‿to; the inverse swaps them *)
Definition bitcast_c1 (f : list ctype) (x : barr) : res barr := match f with [a; b] => bitcast_impl a b x | _ => Err end.
Definition bitcast_im (f : list ctype) (x : barr) : res barr := match f with [a; b] => bitcast_impl b a x | _ => Err end.

(* bit.c:169-173 req2 *)
Definition req2 (s : Z) : res Z := if negb (Z.land (Z.lor (2^31) s) (to_u 32 (s - 1)) =? 0) then Err else Ok s.
(* bit.c:184-196 and 258-270: the widths in 𝕗 (an atom counts as a list of one); the last one stands for those missing *)
Definition widths (k : nat) (f : list Z) : res (list Z) :=
  if (length f <? 1)%nat || (k <? length f)%nat then Err else
  do t <- mapM req2 f;
  Ok (t ++ repeat (last t 0) (k - length t)).

(* a new array of n bits: m_arr(offsetof(TyArr,a) + (n+7)/8, …) (bit.c:218, 300); junk is what the memory held before *)
Definition alloc (junk : Z -> Z) (n : Z) : list Z := map (fun i => w64 (junk (Z.of_nat i))) (seq 0 (Z.to_nat ((n + 63) / 64))).

(* the loops over whole words and the masked last word: bit.c:228-229, 336-338, 348-351. f gives the new word i; it may read r when r is x *)
Definition wordloop (n : Z) (f : Z -> list Z -> res Z) (r : list Z) : res (list Z) :=
  let l := n / 64 in
  do r <- for_ (Z.to_nat l) 0 (fun i r => do v <- f i r; wrz r i v) r;
  let q := (- n) mod 64 in
  if q =? 0 then Ok r else
  do a <- rdz r l;
  do v <- f l r;
  do a2 <- rdz r l;
  wrz r l (Z.lxor a2 (Z.land (Z.shiftr (Z.ones 64) q) (Z.lxor a v))).
(* the loops over elements of W bits: bit.c:240-242, 340-343, 354-358 *)
Definition laneloop (W n : Z) (f : Z -> list Z -> res Z) (r : list Z) : res (list Z) :=
  for_ (Z.to_nat (n / W)) 0 (fun i r => do v <- f i r; stbits r (i * W) W v) r.

Definition lane_ok (ow : Z) : bool := (ow =? 8) || (ow =? 16) || (ow =? 32) || (ow =? 64).

Inductive op1 : Type := Not_ | Neg_.
(* bit.c:183-249 bitop1. reuse: x may be overwritten. IA(x) << xws is computed in 32 bits before it becomes a u64 (bit.c:204) *)
Definition bitop1 (op : op1) (f : list Z) (reuse : bool) (junk : Z -> Z) (x : barr) : res barr :=
  do t <- widths 3 f;
  let ow := nth 0 t 0 in let rw := nth 1 t 0 in let xw := nth 2 t 0 in
  if Z.of_nat (length (b_sh x)) <? 1 then Err else
  let rws := Z.log2 rw in let xws := Z.log2 xw in       (* CTZ of powers of two *)
  let n := to_u 32 (Z.shiftl (b_ia x) xws) in
  let s := Z.shiftl (last (b_sh x) 0) xws in
  let rl := Z.shiftr s rws in
  if negb (Z.land s (ow - 1) =? 0) || negb (Z.shiftl rl rws =? s) then Err else
  if 2^32 - 1 <=? rl then Err else
  do _u <- data_width xw;
  do _u <- data_width rw;
  let src (r : list Z) := if reuse then r else b_mem x in
  let r0 := if reuse then b_mem x else alloc junk n in
  do r <- match op with
    | Not_ => wordloop n (fun i r => do v <- rdz (src r) i; Ok (not64 v)) r0
    | Neg_ => if lane_ok ow then laneloop ow n (fun i r => do v <- ldbits (src r) (i * ow) ow; Ok (- v)) r0 else Err
    end;
  Ok (set_bit_result r (b_sh x) rl).

Inductive op2 : Type := And_ | Or_ | Xor_ | Add_ | Sub_ | Mul_.
Definition bitwise (op : op2) (a b : Z) : Z := match op with And_ => Z.land a b | Or_ => Z.lor a b | _ => Z.lxor a b end.
(* + and - on unsigned elements; * on signed elements: for 32 and 64 bits a product outside of the type is undefined
   (bit.c:325 instantiates it for the signed types; the build does not use -fwrapv), narrower ones are multiplied as int and truncated when stored *)
Definition arith (op : op2) (W a b : Z) : res Z :=
  match op with
  | Add_ => Ok (a + b)
  | Sub_ => Ok (a - b)
  | _ => let p := to_s W a * to_s W b in
         if (32 <=? W) && negb ((- 2^(W-1) <=? p) && (p <? 2^(W-1))) then UB else Ok p
  end.
Definition is_bitwise (op : op2) : bool := match op with And_ | Or_ | Xor_ => true | _ => false end.
(* bit.c:350 for (usz tw=ow; tw<64; tw*=2) wv|=wv<<tw *)
Fixpoint spread (fuel : nat) (tw wv : Z) : res Z :=
  if tw <? 64 then match fuel with O => UB | S k => spread k (tw * 2) (Z.lor wv (shl wv tw)) end else Ok wv.

Fixpoint sh_eq (a b : list Z) : bool := match a, b with [], [] => true | x :: a, y :: b => (x =? y) && sh_eq a b | _, _ => false end.

(* bit.c:286-362: the part after 𝕨 and 𝕩 have possibly been swapped *)
Definition bitop2_run (op : op2) (noextend negw : bool) (ow rw xw ww : Z) (junk : Z -> Z) (w x : barr) (t : Z) : res barr :=
  let rws := Z.log2 rw in
  let n := to_u 32 (Z.shiftl (b_ia x) (Z.log2 xw)) in
  let rl := Z.shiftr t rws in
  if negb (Z.land t (ow - 1) =? 0) || negb (Z.shiftl rl rws =? t) then Err else
  if 2^32 - 1 <=? rl then Err else
  do _u <- data_width ww;
  do _u <- data_width xw;
  do _u <- data_width rw;
  let r0 := alloc junk n in
  do r <- (if noextend then
      if is_bitwise op then wordloop n (fun i r => do a <- rdz (b_mem w) i; do b <- rdz (b_mem x) i; Ok (bitwise op a b)) r0
      else if lane_ok ow then laneloop ow n (fun i r => do a <- ldbits (b_mem w) (i * ow) ow; do b <- ldbits (b_mem x) (i * ow) ow; arith op ow a b) r0
      else Err
    else
      do w0 <- (if negw then do v <- rdz (b_mem w) 0; Ok (w64 (- v)) else rdz (b_mem w) 0);
      if is_bitwise op then
        if 64 <? ow then Err else
        do wv <- spread 6 ow (Z.land w0 (Z.shiftr (Z.ones 64) (64 - ow)));
        wordloop n (fun i r => do b <- rdz (b_mem x) i; Ok (bitwise op wv b)) r0
      else if lane_ok ow then
        let wv := Z.land w0 (Z.ones ow) in
        laneloop ow n (fun i r => do b <- ldbits (b_mem x) (i * ow) ow; arith op ow wv b) r0
      else Err);
  Ok (set_bit_result r (b_sh x) rl).

(* bit.c:256-286 bitop2 *)
Definition bitop2 (op : op2) (f : list Z) (junk : Z -> Z) (w x : barr) : res barr :=
  do t <- widths 4 f;
  let ow := nth 0 t 0 in let rw := nth 1 t 0 in let xw := nth 2 t 0 in let ww := nth 3 t 0 in
  let wr := Z.of_nat (length (b_sh w)) in let xr := Z.of_nat (length (b_sh x)) in
  let s := if wr =? 0 then ww else ww * last (b_sh w) 0 in
  let t := if xr =? 0 then xw else xw * last (b_sh x) 0 in
  let noextend := (wr =? xr) && (s =? t) in
  if (wr =? xr) && (xr =? 0) then Err else
  if noextend then
    if sh_eq (removelast (b_sh x)) (removelast (b_sh w)) then bitop2_run op true false ow rw xw ww junk w x t else Err
  else if (1 <? wr) || negb (s =? ow) || (xr =? 0) then
    if (1 <? xr) || negb (t =? ow) || (wr =? 0) then Err else
    let negw := match op with Sub_ => true | _ => false end in
    bitop2_run (if negw then Add_ else op) false negw ow rw ww xw junk x w s
  else bitop2_run op false false ow rw xw ww junk w x t.
