(** Model of number formatting and parsing: •Repr of a number and •ParseFloat.

    Code: src/utils/ryu.c, src/utils/ryu/ryu_common.h, src/utils/ryu/d2s_full_table.h, src/builtins/sysfn.c:119-141.
    Configuration modelled: NO_RYU=0, RYU_OPTIMIZE_SIZE=0 (the defaults, src/README.md:455) on a platform with 128-bit
    integers.  A double is its 64 bits.  Characters are code points.  Signed 32-bit sums that the code relies on not
    overflowing go through [i32], which is undefined outside of the type. *)
From Verif Require Import Base SqueezeModel RyuTable.
Open Scope Z_scope.

Definition i32 (z : Z) : res Z := if (- 2 ^ 31 <=? z) && (z <? 2 ^ 31) then Ok z else UB.
(** C shifts of 64-bit words: undefined when the count is outside of 0..63 *)
Definition shr64 (x s : Z) : res Z := if (0 <=? s) && (s <? 64) then Ok (x / 2 ^ s) else UB.
Definition low_mask (s : Z) : res Z := if (0 <=? s) && (s <? 64) then Ok (2 ^ s - 1) else UB.

(** ** ryu_common.h *)

(** ryu_common.h:40-47 log2pow5, :60-62 ceil_log2pow5, :50-57 pow5bits *)
Definition log2pow5 (e : Z) : Z := to_u 32 (to_u 32 e * 1217359) / 2 ^ 19.
Definition ceil_log2pow5 (e : Z) : Z := log2pow5 e + 1.
Definition pow5bits (e : Z) : Z := to_u 32 (to_u 32 e * 1217359) / 2 ^ 19 + 1.
(** ryu_common.h:65-70 log10Pow2, :73-78 log10Pow5 *)
Definition log10Pow2 (e : Z) : Z := to_u 32 (to_u 32 e * 78913) / 2 ^ 18.
Definition log10Pow5 (e : Z) : Z := to_u 32 (to_u 32 e * 732923) / 2 ^ 20.

(** ryu_common.h:166-178 pow5Factor: multiply by the inverse of 5 modulo 2^64 while the product is small.
    The loop runs at most 27 times for a nonzero 64-bit value; running out of [fuel] is undefined (an endless loop). *)
Definition m_inv_5 : Z := 14757395258967641293.
Definition n_div_5 : Z := 3689348814741910323.
Fixpoint pow5Factor (fuel : nat) (value count : Z) : res Z :=
  match fuel with
  | O => UB
  | S f => let value := to_u 64 (value * m_inv_5) in
           if n_div_5 <? value then Ok count else pow5Factor f value (count + 1)
  end.
(** ryu_common.h:181-184 multipleOfPowerOf5 *)
Definition multipleOfPowerOf5 (value p : Z) : res bool :=
  do c <- pow5Factor 40 value 0; Ok (p <=? c).
(** ryu_common.h:187-192 multipleOfPowerOf2 *)
Definition multipleOfPowerOf2 (value p : Z) : res bool :=
  do m <- low_mask p; Ok (Z.land value m =? 0).
(** ryu_common.h:198-202 mulShift64; the shift count of a 128-bit word is [j-64] *)
Definition mulShift64 (m : Z) (mul : Z * Z) (j : Z) : res Z :=
  let b0 := m * fst mul in
  let b2 := m * snd mul in
  if (64 <=? j) && (j <? 192) then Ok (to_u 64 (to_u 128 (b0 / 2 ^ 64 + b2) / 2 ^ (j - 64))) else UB.
(** a table entry; outside of the table is undefined *)
Definition entry (t : list (Z * Z)) (i : Z) : res (Z * Z) :=
  if i <? 0 then UB else rd t (Z.to_nat i).

(** [((uint32_t) x) - k * ((uint32_t) (x/k))] (ryu.c:183,185,...) *)
Definition low_mod (k x : Z) : Z := to_u 32 (to_u 32 x - to_u 32 (k * to_u 32 (x / k))).

(** ** Printing *)

(** ryu.c:176-191: remove digits while the interval still holds several numbers (general case).
    The state is (vr, vp, vm, removed, lastRemovedDigit, vmIsTrailingZeros, vrIsTrailingZeros). *)
Notation gst := (Z * Z * Z * Z * Z * bool * bool)%type.
Fixpoint gen_loop1 (fuel : nat) (s : gst) : res gst :=
  match fuel with
  | O => UB
  | S f =>
    let '(vr, vp, vm, removed, last, vmz, vrz) := s in
    if vp / 10 <=? vm / 10 then Ok s
    else gen_loop1 f (vr / 10, vp / 10, vm / 10, removed + 1, low_mod 10 vr,
                      vmz && (low_mod 10 vm =? 0), vrz && (last =? 0))
  end.
(** ryu.c:196-213: then remove zeros of an exact lower bound *)
Fixpoint gen_loop2 (fuel : nat) (s : gst) : res gst :=
  match fuel with
  | O => UB
  | S f =>
    let '(vr, vp, vm, removed, last, vmz, vrz) := s in
    if negb (low_mod 10 vm =? 0) then Ok s
    else gen_loop2 f (vr / 10, vp / 10, vm / 10, removed + 1, low_mod 10 vr, vmz, vrz && (last =? 0))
  end.
(** ryu.c:174-224 general case: the digits and the number of removed digits *)
Definition general (accept : bool) (vr vp vm : Z) (vmz vrz : bool) : res (Z * Z) :=
  do s <- gen_loop1 40 (vr, vp, vm, 0, 0, vmz, vrz);
  let '(_, _, _, _, _, vmz1, _) := s in
  do s <- (if vmz1 : bool then gen_loop2 40 s else Ok s);
  let '(vr, vp, vm, removed, last, vmz, vrz) := s in
  let last := if vrz && (last =? 5) && (vr mod 2 =? 0) then 4 else last in
  Ok (vr + (if ((vr =? vm) && (negb accept || negb vmz)) || (5 <=? last) then 1 else 0), removed).

(** ryu.c:239-251 the digit loop of the common case; the state is (vr, vp, vm, removed, roundUp) *)
Notation cst := (Z * Z * Z * Z * bool)%type.
Fixpoint com_loop (fuel : nat) (s : cst) : res cst :=
  match fuel with
  | O => UB
  | S f =>
    let '(vr, vp, vm, removed, up) := s in
    if vp / 10 <=? vm / 10 then Ok s
    else com_loop f (vr / 10, vp / 10, vm / 10, removed + 1, 5 <=? low_mod 10 vr)
  end.
(** ryu.c:225-256 common case *)
Definition common (vr vp vm : Z) : res (Z * Z) :=
  let s := if vm / 100 <? vp / 100
           then (vr / 100, vp / 100, vm / 100, 2, 50 <=? low_mod 100 vr)
           else (vr, vp, vm, 0, false) in
  do s <- com_loop 40 s;
  let '(vr, vp, vm, removed, up) := s in
  Ok (vr + (if (vr =? vm) || up then 1 else 0), removed).

(** ryu_common.h:204-208 mulShiftAll64: (vr, vp, vm) *)
Definition mulShiftAll64 (m : Z) (mul : Z * Z) (j mmShift : Z) : res (Z * Z * Z) :=
  do vp <- mulShift64 (4 * m + 2) mul j;
  do vm <- mulShift64 (4 * m - 1 - mmShift) mul j;
  do vr <- mulShift64 (4 * m) mul j;
  Ok (vr, vp, vm).

(** ryu.c:77-132, e2 >= 0: (vr, vp, vm, e10, vmIsTrailingZeros, vrIsTrailingZeros) *)
Definition d2d_pos (accept : bool) (m2 e2 mmShift : Z) : res (Z * Z * Z * Z * bool * bool) :=
  let mv := 4 * m2 in
  let q := log10Pow2 e2 - (if 3 <? e2 then 1 else 0) in
  let k := 125 + pow5bits q - 1 in
  let i := - e2 + q + k in
  do mul <- entry pow5_inv_split q;
  do (vr, vp, vm) <- mulShiftAll64 m2 mul i mmShift;
  if q <=? 21 then
    if low_mod 5 mv =? 0 then
      do z <- multipleOfPowerOf5 mv q; Ok (vr, vp, vm, q, false, z)
    else if accept then
      do z <- multipleOfPowerOf5 (mv - 1 - mmShift) q; Ok (vr, vp, vm, q, z, false)
    else
      do z <- multipleOfPowerOf5 (mv + 2) q; Ok (vr, vp - (if z then 1 else 0), vm, q, false, false)
  else Ok (vr, vp, vm, q, false, false).

(** ryu.c:112-160, e2 < 0 *)
Definition d2d_neg (accept : bool) (m2 e2 mmShift : Z) : res (Z * Z * Z * Z * bool * bool) :=
  let mv := 4 * m2 in
  let q := log10Pow5 (- e2) - (if 1 <? - e2 then 1 else 0) in
  let i := - e2 - q in
  let k := pow5bits i - 125 in
  let j := q - k in
  do mul <- entry pow5_split i;
  do (vr, vp, vm) <- mulShiftAll64 m2 mul j mmShift;
  let e10 := q + e2 in
  if q <=? 1 then
    if accept then Ok (vr, vp, vm, e10, mmShift =? 1, true)
    else Ok (vr, vp - 1, vm, e10, false, true)
  else if q <? 63 then
    do z <- multipleOfPowerOf2 mv q; Ok (vr, vp, vm, e10, false, z)
  else Ok (vr, vp, vm, e10, false, false).

(** ryu.c:49-269 d2d: (mantissa, exponent) of the printed decimal *)
Definition d2d (mantissa exponent : Z) : res (Z * Z) :=
  let e2 := (if exponent =? 0 then 1 else exponent) - 1023 - 52 - 2 in
  let m2 := if exponent =? 0 then mantissa else Z.lor (2 ^ 52) mantissa in
  let accept := Z.land m2 1 =? 0 in
  let mmShift := if negb (mantissa =? 0) || (exponent <=? 1) then 1 else 0 in
  do (vr, vp, vm, e10, vmz, vrz) <- (if 0 <=? e2 then d2d_pos accept m2 e2 mmShift else d2d_neg accept m2 e2 mmShift);
  do (out, removed) <- (if vmz || vrz then general accept vr vp vm vmz vrz else common vr vp vm);
  Ok (out, e10 + removed).

(** ryu.c:284-301 d2d_small_int: the integer, when the number is an integer in 1..2^53-1 *)
Definition d2d_small_int (mantissa exponent : Z) : res (option Z) :=
  let m2 := Z.lor (2 ^ 52) mantissa in
  let e2 := exponent - 1023 - 52 in
  if 0 <? e2 then Ok None
  else if e2 <? -52 then Ok None
  else do mask <- low_mask (- e2);
       if negb (Z.land m2 mask =? 0) then Ok None
       else do m <- shr64 m2 (- e2); Ok (Some m).

(** ryu.c:417-423: strip trailing zeros into the exponent *)
Fixpoint strip_zeros (fuel : nat) (m e : Z) : res (Z * Z) :=
  match fuel with
  | O => UB
  | S f => if negb (low_mod 10 m =? 0) then Ok (m, e) else strip_zeros f (m / 10) (e + 1)
  end.

(** a character buffer; [None] is a cell not written yet *)
Notation cbuf := (list (option Z)).
(** memcpy of known characters into a buffer, and out of it *)
Fixpoint puts (b : cbuf) (pos : nat) (cs : list Z) : res cbuf :=
  match cs with
  | [] => Ok b
  | c :: t => do b <- wr b pos (Some c); puts b (S pos) t
  end.
Fixpoint gets (b : cbuf) (pos n : nat) : res (list Z) :=
  match n with
  | O => Ok []
  | S n => do c <- rd b pos;
           match c with
           | None => UB
           | Some c => do t <- gets b (S pos) n; Ok (c :: t)
           end
  end.
(** memcpy lengths and pointer offsets computed as int; a negative one is undefined *)
Definition off (z : Z) : res nat := if z <? 0 then UB else Ok (Z.to_nat z).

(** ryu.c:275 W2D: the two digits of a number below 100 *)
Definition w2d (num : Z) : res (list Z) :=
  do k <- off num;
  do a <- rd digit_table (2 * k); do b <- rd digit_table (2 * k + 1); Ok [a; b].
(** ryu.c:276 W4D *)
Definition w4d (num : Z) : res (list Z) :=
  do a <- w2d (num / 100); do b <- w2d (num mod 100); Ok (a ++ b).
(** move the digit pointer down and write there *)
Definition push (s : cbuf * nat) (n : nat) (cs : res (list Z)) : res (cbuf * nat) :=
  let '(b, dec) := s in
  if (dec <? n)%nat then UB
  else do cs <- cs; do b <- puts b (dec - n) cs; Ok (b, (dec - n)%nat).

(** ryu.c:322: [while (o32 >= 10000)] *)
Fixpoint dig_loop (fuel : nat) (o32 : Z) (s : cbuf * nat) : res (Z * (cbuf * nat)) :=
  match fuel with
  | O => UB
  | S f => if 10000 <=? o32 then do s <- push s 4 (w4d (o32 mod 10000)); dig_loop f (o32 / 10000) s
           else Ok (o32, s)
  end.
(** ryu.c:304-325: all digits of the mantissa, right-aligned in a 25-character buffer *)
Definition digits_buf (m : Z) : res (cbuf * nat) :=
  let s := (repeat None 25, 25%nat) in
  do (o64, s) <-
    (if negb (m / 2 ^ 32 =? 0) then
       let q := m / 100000000 in
       let o32 := to_u 32 (to_u 32 m - to_u 32 (100000000 * to_u 32 q)) in
       do s <- push s 4 (w4d (o32 mod 10000));
       do s <- push s 4 (w4d (o32 / 10000 mod 10000));
       Ok (q, s)
     else Ok (m, s));
  do (o32, s) <- dig_loop 10 (to_u 32 o64) s;
  do (o32, s) <- (if 100 <=? o32 then do s <- push s 2 (w2d (o32 mod 100)); Ok (o32 / 100, s) else Ok (o32, s));
  if 10 <=? o32 then push s 2 (w2d o32) else push s 1 (Ok [48 + o32]).

(** ryu.c:334-348: whether to write without an exponent, and the length of the result *)
Definition is_positional (force : bool) (exp : Z) : bool := force || ((-5 <? exp) && (exp <? 15)).
Definition result_len (positional sign : bool) (dlen expRaw exp : Z) : Z :=
  dlen + (if sign then 1 else 0) +
  (if positional then (if exp <? 0 then 1 - exp else if expRaw =? 0 then 0 else 1)
   else (if dlen =? 1 then 0 else 1) + (if exp <? 0 then 1 else 0) +
        (let a := if exp <? 0 then - exp else exp in if 100 <=? a then 4 else if 10 <=? a then 3 else 2)).

(** ryu.c:375-379: the digits of the exponent *)
Definition exp_digits (exp : Z) : res (list Z) :=
  if 100 <=? exp then do a <- w2d (exp / 10); Ok (a ++ [48 + exp mod 10])
  else if 10 <=? exp then w2d exp
  else Ok [48 + exp].

(** all cells must have been written *)
Fixpoint filled (b : cbuf) : res (list Z) :=
  match b with
  | [] => Ok []
  | Some c :: t => do t <- filled t; Ok (c :: t)
  | None :: _ => UB
  end.

(** ryu.c:303-383 to_chars.  [rp] is the position behind the sign. *)
Definition to_chars (mantissa expRaw : Z) (sign force : bool) : res (list Z) :=
  do (buf, dec) <- digits_buf mantissa;
  let dlen := 25 - Z.of_nat dec in
  let exp := expRaw + dlen - 1 in
  let positional := is_positional force exp in
  do rlen <- off (result_len positional sign dlen expRaw exp);
  let r := repeat None rlen in
  do (r, rp) <- (if sign then do r <- puts r 0 [175]; Ok (r, 1) else Ok (r, 0));
  let P (k : Z) := off (rp + k) in
  do r <-
    (if positional then
       if exp <? 0 then
         do p <- P 0; do r <- puts r p [48; 46];
         do n <- off (- exp - 1); do p <- P 2; do r <- puts r p (repeat 48 n);
         do n <- off dlen; do cs <- gets buf dec n; do p <- P (- exp + 1); puts r p cs
       else
         do n <- off (exp + 1); do cs <- gets buf dec n; do p <- P 0; do r <- puts r p cs;
         if expRaw =? 0 then Ok r
         else
           do p <- P (exp + 1); do r <- puts r p [46];
           do n <- off (dlen - exp - 1); do d <- off (Z.of_nat dec + exp + 1); do cs <- gets buf d n;
           do p <- P (exp + 2); puts r p cs
     else
       do cs <- gets buf dec 1; do p <- P 0; do r <- puts r p cs;
       do (r, epos) <-
         (if dlen =? 1 then Ok (r, dlen)
          else do p <- P 1; do r <- puts r p [46];
               do n <- off (dlen - 1); do cs <- gets buf (S dec) n; do p <- P 2; do r <- puts r p cs;
               Ok (r, dlen + 1));
       do p <- P epos; do r <- puts r p [101];
       do (r, epos, exp) <-
         (if exp <? 0 then do p <- P (epos + 1); do r <- puts r p [175]; Ok (r, epos + 1, - exp) else Ok (r, epos, exp));
       do ds <- exp_digits exp; do p <- P (epos + 1); puts r p ds);
  filled r.

(** ryu.c:386-430 ryu_d2s, ryu.c:684-688 the constant texts; src/builtins/sysfn.c:92-99 •Repr of a number *)
Definition d2s (bits : Z) : res (list Z) :=
  let sign := negb (Z.land (bits / 2 ^ 63) 1 =? 0) in
  let mantissa := Z.land bits (2 ^ 52 - 1) in
  let exponent := Z.land (bits / 2 ^ 52) 2047 in
  if (exponent =? 2047) || ((exponent =? 0) && (mantissa =? 0)) then
    Ok (if negb (mantissa =? 0) then [78; 97; 78]
        else if negb (exponent =? 0) then (if sign then [175; 8734] else [8734])
        else [48])
  else
    do si <- d2d_small_int mantissa exponent;
    match si with
    | Some m => if m <? 1000000000000000 then to_chars m 0 sign true
                else do (m, e) <- strip_zeros 40 m 0; to_chars m e sign false
    | None => do (m, e) <- d2d mantissa exponent; to_chars m e sign false
    end.

(** ** Parsing *)

(** ryu.c:446 floor_log2; CLZ of 0 is undefined *)
Definition floor_log2 (v : Z) : res Z := if v =? 0 then UB else Ok (Z.log2 v).

(** ryu.c:475-487: the digits of the mantissa from position [i]; [None] when there is a second dot.
    The result is (rest of the text, i, dotIndex, m10, m10digits, offset). *)
Fixpoint mant_loop (len : Z) (l : list Z) (i dot m10 dig ofs : Z) : option (list Z * Z * Z * Z * Z * Z) :=
  match l with
  | [] => Some (l, i, dot, m10, dig, ofs)
  | c :: t =>
    if c =? 46 then (if negb (dot =? len) then None else mant_loop len t (i + 1) i m10 dig ofs)
    else if (c <? 48) || (57 <? c) then Some (l, i, dot, m10, dig, ofs)
    else if dig <? 18 then
      let m10 := to_u 64 (10 * m10 + (c - 48)) in
      mant_loop len t (i + 1) dot m10 (if m10 =? 0 then dig else dig + 1) ofs
    else mant_loop len t (i + 1) dot m10 dig (ofs + 1)
  end.
(** ryu.c:500-510: the digits of the exponent; [None] when there is another character *)
Fixpoint exp_loop (l : list Z) (e10 : Z) : res (option Z) :=
  match l with
  | [] => Ok (Some e10)
  | c :: t =>
    if (c <? 48) || (57 <? c) then Ok None
    else if e10 <? 2 ^ 25 then do e10 <- i32 (10 * e10 + (c - 48)); exp_loop t e10
    else exp_loop t e10
  end.
(** ryu.c:492-511: (signedE, e10, eIndex) from the text behind the mantissa, which starts at position [i];
    [None] when the text is malformed *)
Definition exp_part (len : Z) (l : list Z) (i : Z) : res (option (bool * Z * Z)) :=
  match l with
  | [] => Ok (Some (false, 0, len))
  | c :: t =>
    if (c =? 101) || (c =? 69) then
      let (sg, t) := match t with
                     | d :: t' => if (d =? 45) || (d =? 43) then (d =? 45, t') else (false, t)
                     | [] => (false, t)
                     end in
      match t with
      | [] => Ok None
      | _ => do r <- exp_loop t 0;
             match r with Some e => Ok (Some (sg, e, i)) | None => Ok None end
      end
    else Ok None
  end.

(** the word of a sign and a 63-bit magnitude: ryu.c:537, 609, 663 *)
Definition with_sign (signedM : bool) (w : Z) : Z := (if signedM then 2 ^ 63 else 0) + w.

(** ryu.c:595-665: the double nearest to [m2 * 2^e2]; [tz] says that no lower bits have been dropped *)
Definition assemble (signedM : bool) (m2 e2 : Z) (tz : bool) : res Z :=
  do f <- floor_log2 m2;
  let t := to_s 32 (to_u 32 (e2 + 1023 + f)) in
  let ieee_e2 := if 0 <? t then t else 0 in
  if 2046 <? ieee_e2 then Ok (with_sign signedM (2047 * 2 ^ 52))
  else
    let shift := to_s 32 (to_u 32 ((if ieee_e2 =? 0 then 1 else ieee_e2) - e2 - 1023 - 52)) in
    do mask <- low_mask (shift - 1);
    let tz := tz && (Z.land m2 mask =? 0) in
    do lr <- shr64 m2 (shift - 1);
    do hi <- shr64 m2 shift;
    let lastRemovedBit := Z.land lr 1 in
    let roundUp := negb (lastRemovedBit =? 0) && (negb tz || negb (Z.land hi 1 =? 0)) in
    let ieee_m2 := Z.land (hi + (if roundUp then 1 else 0)) (2 ^ 52 - 1) in
    let ieee_e2 := if (ieee_m2 =? 0) && roundUp then ieee_e2 + 1 else ieee_e2 in
    Ok (with_sign signedM (Z.lor (ieee_e2 * 2 ^ 52) ieee_m2)).

(** ryu.c:521-593: [m10 * 10^e10] to a double *)
Definition convert (signedM : bool) (m10 m10digits e10 : Z) : res Z :=
  if m10 =? 0 then Ok (with_sign signedM 0)
  else if m10digits + e10 <=? -324 then Ok (with_sign signedM 0)
  else if 310 <=? m10digits + e10 then Ok (with_sign signedM (2047 * 2 ^ 52))
  else if 0 <=? e10 then
    do f <- floor_log2 m10;
    let e2 := to_s 32 (to_u 32 (f + e10 + log2pow5 e10 - 53)) in
    let j := e2 - e10 - ceil_log2pow5 e10 + 125 in
    do mul <- entry pow5_split e10;
    do m2 <- mulShift64 m10 mul j;
    do tz <- (if e2 <? e10 then Ok true
              else if e2 - e10 <? 64 then multipleOfPowerOf2 m10 (e2 - e10) else Ok false);
    assemble signedM m2 e2 tz
  else
    do f <- floor_log2 m10;
    let e2 := to_s 32 (to_u 32 (f + e10 - ceil_log2pow5 (- e10) - 53)) in
    let j := e2 - e10 + ceil_log2pow5 (- e10) - 1 + 125 in
    do mul <- entry pow5_inv_split (- e10);
    do m2 <- mulShift64 m10 mul j;
    do tz <- multipleOfPowerOf5 m10 (- e10);
    assemble signedM m2 e2 tz.

(** ryu.c:458-667 ryu_s2d_n; [None] when it returns false *)
Definition s2d_n (buf : list Z) : res (option Z) :=
  match buf with
  | [] => UB
  | c0 :: t0 =>
    let len := Z.of_nat (length buf) in
    let signedM := c0 =? 45 in
    let i1 := if signedM then 1 else 0 in
    match mant_loop len (if signedM then t0 else buf) i1 len 0 0 0 with
    | None => Ok None
    | Some (rest, i, dot, m10, dig, ofs) =>
      if (i - i1 <=? 1) && ((i =? i1) || (i1 =? dot)) then Ok None
      else
        do ex <- exp_part len rest i;
        match ex with
        | None => Ok None
        | Some (signedE, e, eIndex) =>
          do e10 <- i32 ((if signedE then - e else e) + ofs);
          do e10 <- i32 (e10 - (if dot <? eIndex then eIndex - dot - 1 else 0));
          do r <- convert signedM m10 dig e10; Ok (Some r)
        end
    end
  end.

(** src/builtins/sysfn.c:119-141 •ParseFloat of a list of characters below 256 *)
Definition parse_float (x : list Z) : res Z :=
  if Z.of_nat (length x) =? 0 then Err
  else if 2 ^ 20 <=? Z.of_nat (length x) then Err
  else do r <- s2d_n x;
       match r with Some w => Ok w | None => Err end.
