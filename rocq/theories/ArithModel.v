(** Model of dyadic arithmetic on arrays of integer values: src/builtins/arithd.c (SINGELI=0) for + - × ∧ ∨ ⌊ ⌈.
    A double is modelled by its value if that is a whole number; the operations considered here make whole numbers of whole numbers. Infinities (results of 2^1024 or more) and the sign of zero are left out. *)
From Verif Require Import Base BitsModel SqueezeModel SelectModel.
From Coq Require Import List.

(** rounding a whole number to a double: to 53 significant bits, to nearest, ties to even (IEEE 754; every operation in C on f64 rounds so) *)
Definition rnd (z : Z) : Z :=
  let a := Z.abs z in
  let e := Z.log2 a - 52 in
  if e <=? 0 then z else
  let q := a / 2 ^ e in
  let r := a mod 2 ^ e in
  let q := if (2 ^ e <? 2 * r) || ((2 ^ e =? 2 * r) && Z.odd q) then q + 1 else q in
  Z.sgn z * (q * 2 ^ e).

Inductive op := OAdd | OSub | OMul | OAnd | OOr | OMin | OMax.
(* arithd.c:398-418 AR_I_SCALAR for two numbers; 11 bqn_or; also DOF (127) of each EXPR *)
Definition dbl_op (o : op) (w x : Z) : Z :=
  match o with
  | OAdd => rnd (w + x) | OSub => rnd (w - x) | OMul | OAnd => rnd (w * x)
  | OOr => rnd (rnd (w + x) - rnd (w * x))
  | OMin => if x <? w then x else w | OMax => if x <? w then w else x
  end.
(** signed arithmetic in C on K bits: undefined on overflow *)
Definition ck (K v : Z) : res Z := if (- 2 ^ (K - 1) <=? v) && (v <? 2 ^ (K - 1)) then Ok v else UB.
(* the EXPRs of 315-321 (AA) and 349-355, 371 (SA, AS) on integers of K bits; with AA, ∨ is computed in doubles and converted *)
Definition int_op (aa : bool) (K : Z) (o : op) (w x : Z) : res Z :=
  match o with
  | OAdd => ck K (w + x) | OSub => ck K (w - x) | OMul | OAnd => ck K (w * x)
  | OOr => if aa then ck K (dbl_op OOr w x) else do s <- ck K (w + x); do p <- ck K (w * x); ck K (s - p)
  | OMin => Ok (if x <? w then x else w) | OMax => Ok (if x <? w then w else x)
  end.

(** stored arrays of numbers: bits, integers of 8, 16, 32 bits, doubles *)
Inductive arr := AB (wp : list Z) (n : Z) | AI (k : Z) (l : list Z) | AF (l : list Z).
Definition a_ia (a : arr) : Z := match a with AB _ n => n | AI _ l => Z.of_nat (length l) | AF l => Z.of_nat (length l) end.
(* arithd.c:128-130 DOI8, DOI16, DOI32: arithmetic on int (32 bits) for the first two, converted to i16 or i32 (EXPR on i16 operands is computed in int); None: an element does not fit, goto BASE *)
Fixpoint do_int (aa : bool) (k : Z) (o : op) (w x : list Z) : res (option (list Z)) :=
  match w, x with
  | a :: w, b :: x =>
    do v <- int_op aa (if k =? 32 then 64 else 32) o a b;
    let rv := to_s (2 * k) v in
    if negb (rv =? to_s k rv) then Ok None else
    do r <- do_int aa k o w x;
    match r with Some r => Ok (Some (rv :: r)) | None => Ok None end
  | [], [] => Ok (Some [])
  | _, _ => UB
  end.
(* 127 DOF; also arith_recd: element by element *)
Fixpoint do_dbl (o : op) (w x : list Z) : res (list Z) := match w, x with a :: w, b :: x => do r <- do_dbl o w x; Ok (dbl_op o a b :: r) | [], [] => Ok [] | _, _ => UB end.
(** reading the elements of an array, whatever its type (cpyI8Arr and the others, or Get) *)
Definition elems (a : arr) : res (list Z) := match a with AB wp n => do l <- get_bits (Z.to_nat n) wp 0; Ok (map (fun b : bool => if b then 1 else 0) l) | AI _ l => Ok l | AF l => Ok l end.
(* 262-273 bitAA1, bitAA2 *)
Fixpoint zip_words (f : Z -> Z -> Z) (n : nat) (wp xp : list Z) (i : Z) : res (list Z) := match n with O => Ok [] | S n => do a <- rdz wp i; do b <- rdz xp i; do r <- zip_words f n wp xp (i + 1); Ok (f a b :: r) end.
Definition bit_kind (o : op) : Z := match o with OMul | OAnd | OMin => 2 | OOr | OMax => 1 | OAdd | OSub => 0 end.
Section A.
Variable sq : arr -> arr. (* narrowing the result *)
Definition recd (o : op) (w x : list Z) : res arr := do r <- do_dbl o w x; Ok (sq (AF r)).
(* 275-314 AR_I_AA for arguments of the same shape; iMakeEq (104-117): bits become the type of the other argument, or i8 *)
Definition wid (a : arr) : Z := match a with AB _ _ => 1 | AI k _ => k | AF _ => 64 end.
Definition arith_AA (o : op) (w x : arr) : res arr :=
  let ia := a_ia x in
  let general (wk xk : Z) :=
    do wl <- elems w; do xl <- elems x;
    if ((wk =? 32) || (wk =? 64)) && ((xk =? 32) || (xk =? 64)) then
      if (wk =? 32) && (xk =? 32) then
        do r <- do_int true 32 o wl xl;
        match r with Some r => Ok (AI 32 r) | None => do r <- do_dbl o wl xl; Ok (sq (AF r)) end
      else if (wk =? 64) && (xk =? 64) then do r <- do_dbl o wl xl; Ok (AF r)
      else do r <- do_dbl o wl xl; Ok (sq (AF r))
    else if (wk =? 64) || (xk =? 64) then recd o wl xl
    else
      let k := Z.max wk xk in
      do r <- do_int true k o wl xl;
      match r with Some r => Ok (AI k r) | None => recd o wl xl end in
  match w, x with
  | AB wp _, AB xp _ =>
    if bit_kind o =? 0 then general 8 8 else
    do r <- zip_words (if bit_kind o =? 1 then Z.lor else Z.land) (Z.to_nat (BIT_N ia)) wp xp 0; Ok (AB r ia)
  | AB _ _, _ => general (wid x) (wid x)
  | _, AB _ _ => general (wid w) (wid w)
  | _, _ => general (wid w) (wid x)
  end.
(* 231-246 bit_sel1Fn: the two possible results, chosen by the bits (bit_sel, utils/bits.c:39-95, as its element-wise choice; narrowing of the result by [sq]). A value that is not needed is not computed *)
Definition bit_sel1 (o : op) (bitx : bool) (c : Z) (bp : list Z) (n : Z) : res arr :=
  do l <- get_bits (Z.to_nat n) bp 0;
  let e0 := if bitx then dbl_op o c 0 else dbl_op o 0 c in
  let e1 := if bitx then dbl_op o c 1 else dbl_op o 1 c in
  Ok (sq (AF (map (fun b : bool => if b then e1 else e0) l))).
Definition fits (k v : Z) : bool := (- 2 ^ (k - 1) <=? v) && (v <? 2 ^ (k - 1)).
(* 248-253 REG_SA with 342-347 *)
Definition arith_SA (o : op) (w : Z) (x : arr) : res arr :=
  match x with
  | AB bp n => bit_sel1 o true w bp n
  | AI k l =>
    let ws := repeat w (length l) in
    if fits k w then do r <- do_int false k o ws l; match r with Some r => Ok (AI k r) | None => recd o ws l end else recd o ws l
  | AF l => do r <- do_dbl o (repeat w (length l)) l; Ok (AF r)
  end.
(* 254-259 REG_AS with 335-340 (only Sub; the others are by exchange of arguments, 384-389) *)
Definition arith_AS (o : op) (w : arr) (x : Z) : res arr :=
  match o with
  | OSub => match w with
    | AB bp n => bit_sel1 o false x bp n
    | AI k l =>
      let xs := repeat x (length l) in
      if fits k x then do r <- do_int false k o l xs; match r with Some r => Ok (AI k r) | None => recd o l xs end else recd o l xs
    | AF l => do r <- do_dbl o l (repeat x (length l)); Ok (AF r)
    end
  | _ => arith_SA o x w
  end.
End A.

(* arithd.c:179-206 stile with a power of two: 𝕩 of k bits, widened first if the modulus is too large for the type, and masked (AND with modulus-1 in every element). The result is narrowed by type only: 1 bit, 8 or 16 bits *)
Definition stile_pow2 (m k : Z) (l : list Z) : res arr :=
  if m =? 1 then Ok (AI 8 (map (fun _ => 0) l)) else
  let k := if 2 ^ (k - 1) <? m then if 32768 <? m then 32 else 16 else k in
  let r := map (fun e => to_s k (Z.land (to_u k e) (to_u k (m - 1)))) l in
  if m <? 256 then if forallb (fits 8) r then Ok (AI 8 r) else UB else if m <? 65536 then if forallb (fits 16) r then Ok (AI 16 r) else UB else Ok (AI k r).

(* arithd.c:480-497 gcd_u64: the loop; [fuel] bounds the iterations, b is odd *)
Fixpoint gcd_loop (fuel : nat) (a b az : Z) : res Z :=
  match fuel with
  | O => UB
  | S f =>
    let a := Z.shiftr a az in
    let d := to_u 64 (b - a) in
    let b' := if b <? a then b else a in
    if d =? 0 then Ok b' else
    let a' := if b' <? a then to_u 64 (- d) else d in
    do az <- CTZ d;
    gcd_loop f a' b' az
  end.
Definition gcd_u64 (a b : Z) : res Z :=
  if a =? 0 then Ok b else if b =? 0 then Ok a else
  do az <- CTZ a; do bz <- CTZ b;
  let sh := if az <? bz then az else bz in
  do r <- gcd_loop 200 a (Z.shiftr b bz) az;
  Ok (to_u 64 (Z.shiftl r sh)).
(* 498-501 *)
Definition lcm_u64 (a b : Z) : res Z :=
  if (a =? 0) || (b =? 0) then Ok 0 else do g <- gcd_u64 a b; if g =? 0 then UB else Ok (to_u 64 (a / g * b)).

(* arithd.c:356-365 a character plus an array of integers, on i32 as in the source; 322-330 an array of characters minus one of integers *)
Definition CHR_MAX : Z := 1114111.
Fixpoint chr_add (w : Z) (l : list Z) : res (list Z) :=
  match l with [] => Ok [] | e :: l => do v <- ck 32 (e + w); let v := to_u 32 v in if CHR_MAX <? v then Err else do r <- chr_add w l; Ok (v :: r) end.
Fixpoint chr_sub (w l : list Z) : res (list Z) :=
  match w, l with [], [] => Ok [] | c :: w, e :: l => do v <- ck 32 (c - e); let v := to_u 32 v in if CHR_MAX <? v then Err else do r <- chr_sub w l; Ok (v :: r) | _, _ => UB end.
