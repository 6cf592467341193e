(** Model of the random number functions of •rand and •MakeRand: src/builtins/sysfn.c:343-644, with the generator of src/utils/wyhash.h.
    The two variables of the namespace are taken together as the 64-bit seed; RAND_START and RAND_END (343-346) exchange its halves. Memory that has not been written holds junk. *)
From Verif Require Import Base BitsModel SqueezeModel WidenModel.

(* src/utils/wyhash.h:46-77 _wymum, _wymix with a 128-bit product; 161 wyrand; 171 wy2u0k; 164 wy2u01 in units of 2^-52 *)
Definition wymix (a b : Z) : Z := Z.lxor ((a * b) mod 2^64) ((a * b) / 2^64).
Definition wyrand (seed : Z) : Z * Z := let seed := (seed + 0xa0761d6478bd642f) mod 2^64 in (wymix seed (Z.lxor seed 0xe7037ed1a0b428db), seed).
Definition wy2u0k (r k : Z) : Z := (r * k) / 2^64.
Definition wy2u01 (r : Z) : Z := Z.shiftr r 12.
(* makeRand_c1 (sysfn.c:661-668) splits the bits of the number in high and low half; RAND_START joins them the other way round *)
Definition flip (u : Z) : Z := Z.lor (Z.shiftr u 32) (shl u 32).

(* a u64 converted to a double (m_f64(wy2u0k(…))): the nearest one, to even on a tie; all naturals of less than 2^64 *)
Definition to_double (z : Z) : Z :=
  let e := Z.log2 z - 52 in
  if e <=? 0 then z else
  let q := z / 2^e in let r := z mod 2^e in
  let up := (2^(e-1) <? r) || ((r =? 2^(e-1)) && Z.odd q) in
  (if up then q + 1 else q) * 2^e.
Inductive number : Type := Whole (z : Z) | Frac (z : Z).     (* z, or z * 2^-52 *)
(* sysfn.c:347-354 rand_range_c1; xv has been read as an i64 *)
Definition range_c1 (xv seed : Z) : res (number * Z) :=
  if xv <? 0 then Err else
  let '(rnd, seed) := wyrand seed in
  Ok (if negb (xv =? 0) then Whole (to_double (wy2u0k rnd xv)) else Frac (wy2u01 rnd), seed).

(* sysfn.c:355-434 rand_range_c2: am is the number of elements, a usz of 32 bits. Two's complement elements of k bits in words *)
Definition range_lanes (k am max : Z) (words_ : Z) (junk : list Z) (seed : Z) : res (list Z * Z) :=
  for_ (Z.to_nat am) 0 (fun i st => let '(m, seed) := st in let '(rnd, seed) := wyrand seed in do m <- stbits m (i * k) k (wy2u0k rnd max); Ok (m, seed))
    (firstn (Z.to_nat words_) junk, seed).
Definition range_mask (k max : Z) : Z :=
  if k =? 1 then Z.ones 64 else
  let mask := max - 1 in
  let mask := Z.lor mask (shl mask 32) in
  if k =? 32 then mask else
  let mask := Z.lor mask (shl mask 16) in
  if k =? 16 then mask else Z.lor mask (shl mask 8).
Definition range_words (mask words_ : Z) (u64am : Z) (junk : list Z) (seed : Z) : res (list Z * Z) :=
  for_ (Z.to_nat u64am) 0 (fun i st => let '(m, seed) := st in let '(rnd, seed) := wyrand seed in do m <- wrz m i (Z.land rnd mask); Ok (m, seed))
    (firstn (Z.to_nat words_) junk, seed).
(* the elements of the result, read from its memory *)
Definition read_lanes (k am : Z) (m : list Z) : res (list Z) := mapM (fun i => do v <- ldbits m (Z.of_nat i * k) k; Ok (if k =? 1 then v else to_s k v)) (seq 0 (Z.to_nat am)).
Fixpoint draws (n : nat) (f : Z -> Z) (seed : Z) : list Z * Z :=
  match n with O => ([], seed) | S n => let '(rnd, seed) := wyrand seed in let '(l, seed) := draws n f seed in (f rnd :: l, seed) end.
(* h.h:172 CHECK_IA for 8-byte elements, in m_f64arrp *)
Definition check_ia8 (am : Z) : bool := am <=? 2^31 / 8 - 1000.
(* number of bits of the elements, u64am: sysfn.c:384-391; the sums in usz *)
Definition range_type (am max : Z) : Z * Z :=
  if 128 <? max then
    if 32768 <? max then (32, to_u 32 (am + 1) / 2) else (16, to_u 32 (am + 3) / 4)
  else if negb (max =? 2) then (8, to_u 32 (am + 7) / 8) else (1, to_u 32 (am + 63) / 64).
Definition range_c2 (am max seed : Z) (junk : list Z) : res (list number * Z) :=
  if max <=? 1 then
    if max =? 0 then
      if check_ia8 am then let '(l, seed) := draws (Z.to_nat am) wy2u01 seed in Ok (map Frac l, seed) else Err
    else if negb (max =? 1) then Err else Ok (map Whole (repeat 0 (Z.to_nat am)), seed)
  else if 2^31 <? max then
    if 2^53 <=? max then Err else
    if check_ia8 am then let '(l, seed) := draws (Z.to_nat am) (fun rnd => to_double (wy2u0k rnd max)) seed in Ok (map Whole l, seed) else Err
  else
    let '(k, u64am) := range_type am max in
    let aFilled := to_u 32 (u64am * 8) in                 (* u64am<<3 is a usz, only then converted *)
    do (m, seed) <-
      (if negb (Z.land max (max - 1) =? 0) then range_lanes k am max (aFilled / 8) junk seed
       else range_words (range_mask k max) (aFilled / 8) u64am junk seed);
    do l <- read_lanes k am m;
    Ok (map Whole l, seed).
(* the number of elements for a shape given as a list: sysfn.c:358-370, and the rank check 424-431 *)
Definition range_count (w : list Z) : res Z :=
  let '(am, bad, good) := fold_left (fun (st : Z * bool * bool) c => let '(am, bad, good) := st in (to_u 32 (am * c), bad || (2^32 <=? am * c), good || (c =? 0))) w (1, false, false) in
  if bad && negb good then Err else Ok am.
Definition range_shape_c2 (w : list Z) (max seed : Z) (junk : list Z) : res (list Z * list number * Z) :=
  do am <- range_count w;
  do (l, seed) <- range_c2 am max seed junk;
  if 255 <? Z.of_nat (length w) then Err else Ok (w, l, seed).

Definition iota (n : Z) : list Z := map Z.of_nat (seq 0 (Z.to_nat n)).

(* one step of the shuffles: j = wy2u0k(wyrand(&seed), l-i)+i; c=sp[j]; sp[j]=sp[i]; dp[i]=c, with dp and sp positions in the same array (453-457, 502-507, 538-543) *)
Definition shuf_step (dp sp l : Z) (i : Z) (st : list Z * Z) : res (list Z * Z) :=
  let '(m, seed) := st in let '(rnd, seed) := wyrand seed in
  let j := wy2u0k rnd (l - i) + i in
  do c <- rdz m (sp + j); do a <- rdz m (sp + i);
  do m <- wrz m (sp + j) a; do m <- wrz m (dp + i) c; Ok (m, seed).
Definition shuffle (cnt dp sp l : Z) (m : list Z) (seed : Z) : res (list Z * Z) := for_ (Z.to_nat cnt) 0 (shuf_step dp sp l) (m, seed).

(* sysfn.c:485-497 the split pass: pos holds the current and the ending position of every partition; inl: done *)
Fixpoint split_bytes (c : nat) (r : Z) (pos rp : list Z) (i : Z) : res ((list Z * list Z * Z) * bool) :=
  match c with
  | O => Ok ((pos, rp, i), false)
  | S c =>
    let k := r mod 256 in let r := Z.shiftr r 8 in
    do p <- rdz pos (2 * k);
    do e <- rdz pos (2 * k + 1);
    if p =? e then Ok ((pos, rp, i), true) else
    do pos <- wrz pos (2 * k) (p + 1);
    do rp <- wrz rp p i;
    split_bytes c r pos rp (i + 1)
  end.
Fixpoint split_loop (fuel : nat) (mm : Z) (pos rp : list Z) (i seed : Z) : res (list Z * list Z * Z * Z) :=
  match fuel with
  | O => UB
  | S fuel =>
    let '(rnd, seed) := wyrand seed in
    do b <- split_bytes 8 (Z.land rnd mm) pos rp i;
    let '((pos, rp, i), done) := b in
    if done then Ok (pos, rp, i, seed) else split_loop fuel mm pos rp i seed
  end.
(* sysfn.c:480-483: pos[0]=0, pos[2m-1]=n, pos[2p-1]=pos[2p]=(n*p)>>sd *)
Definition split_pos (n sd : Z) : list Z :=
  let m := 2^sd in
  flat_map (fun p => [Z.shiftr (n * Z.of_nat p) sd; if Z.of_nat p + 1 =? m then n else Z.shiftr (n * (Z.of_nat p + 1)) sd]) (seq 0 (Z.to_nat m)).
(* sysfn.c:498-510: the partitions are moved together, shuffling each *)
Fixpoint gather (c : nat) (p b s : Z) (pos rp : list Z) (seed : Z) : res (list Z * Z) :=
  match c with
  | O => Ok (rp, seed)
  | S c =>
    do e <- rdz pos (2 * p);
    let l := e - s in
    do (rp, seed) <- shuffle l b s l rp seed;
    do s <- rdz pos (2 * p + 1);
    gather c (p + 1) (b + l) s pos rp seed
  end.
(* sysfn.c:512-516 intRange32Fill, and swapping each of the rest with one of those before it *)
Definition fill_rest (rp : list Z) (i n : Z) : res (list Z) := for_ (Z.to_nat (n - i)) i (fun k rp => wrz rp k k) rp.
Definition mix_rest (rp : list Z) (i n seed : Z) : res (list Z * Z) :=
  for_ (Z.to_nat (n - i)) i (fun i st => let '(rp, seed) := st in let '(rnd, seed) := wyrand seed in
    let j := wy2u0k rnd (1 + i) in
    do c <- rdz rp j; do a <- rdz rp i; do rp <- wrz rp j a; do rp <- wrz rp i c; Ok (rp, seed)) (rp, seed).
Definition big_deal (n : Z) (junk : list Z) (seed : Z) : res (list Z * Z) :=
  let log2 := Z.log2 (n - 1) + 1 in                        (* 64 - CLZ(n-1) *)
  let sd := if log2 <? 16 + 8 then log2 - 16 else 8 in
  let m := 2^sd in
  let mm := 0x0101010101010101 * (m - 1) in
  do s <- split_loop (Z.to_nat n) mm (split_pos n sd) junk 0 seed;
  let '(pos, rp, i, seed) := s in
  do (rp, seed) <- gather (Z.to_nat m) 0 0 0 pos rp seed;
  do rp <- fill_rest rp i n;
  mix_rest rp i n seed.
(* sysfn.c:444-521 rand_deal_c1. The results for up to 2^15 are stored in 8 or 16 bits, which hold all values less than xi. junk: the memory of a new array of xi elements *)
Definition deal_c1 (xi seed : Z) (junk : list Z) : res (list Z * Z) :=
  if xi <=? 1 then (if xi <? 0 then Err else Ok (iota xi, seed))
  else if xi =? 2 then let '(rnd, seed) := wyrand seed in Ok (if Z.odd rnd then [1; 0] else [0; 1], seed)
  else if xi <=? 2^19 then shuffle (xi - 1) 0 0 xi (iota xi) seed
  else big_deal xi junk seed.

(* sysfn.c:566-574 the search in the table; hash holds keys at even and values at odd positions; p is the position of a key *)
Fixpoint find_slot (fuel : nat) (hash : list Z) (mask j p : Z) : res (Z * bool) :=
  match fuel with
  | O => UB
  | S fuel =>
    let p := Z.land p mask in
    do h <- rdz hash p;
    if h =? 0 then Ok (p, false) else
    if h =? j then Ok (p, true) else find_slot fuel hash mask j (p + 2)
  end.
(* sysfn.c:555-580 *)
Definition hash_step (wi xi mask : Z) (i : Z) (st : list Z * list Z * Z) : res (list Z * list Z * Z) :=
  let '(rp, hash, seed) := st in let '(rnd, seed) := wyrand seed in
  let j := wy2u0k rnd (xi - i) + i in
  if j <? wi then
    do c <- rdz rp j; do a <- rdz rp i; do rp <- wrz rp j a; do rp <- wrz rp i c; Ok (rp, hash, seed)
  else
    do (p, found) <- find_slot (S (length hash)) hash mask j (2 * j);
    do prev <- (if found : bool then rdz hash (p + 1) else Ok j);
    do hash <- (if found then Ok hash else wrz hash p j);
    do a <- rdz rp i;
    do hash <- wrz hash (p + 1) a;
    do rp <- wrz rp i prev;
    Ok (rp, hash, seed).
Fixpoint pow_from (fuel : nat) (sz w : Z) : res Z := if sz <? w then match fuel with O => UB | S f => pow_from f (sz * 2) w end else Ok sz.
Definition hash_deal (wi xi seed : Z) : res (list Z * Z) :=
  do sz <- pow_from 32 1 (wi * 2);
  let mask := 2 * (sz - 1) in
  do st <- for_ (Z.to_nat wi) 0 (hash_step wi xi mask) (iota wi, repeat 0 (Z.to_nat (2 * sz)), seed);
  let '(rp, _, seed) := st in Ok (rp, seed).
(* sysfn.c:523-583 rand_deal_c2 *)
Definition deal_c2 (wi xi seed : Z) (junk : list Z) : res (list Z * Z) :=
  if xi <? 0 then Err else if wi <? 0 then Err else
  if wi =? 0 then Ok ([], seed) else
  if xi <? wi then Err else
  if wi =? xi then deal_c1 xi seed junk else
  if xi / 64 <? wi then
    do (s, seed) <- shuffle wi 0 0 xi (iota xi) seed;
    Ok (firstn (Z.to_nat wi) s, seed)
  else hash_deal wi xi seed.

(* sysfn.c:600-613 a set of bytes; slash_c1 gives the positions of its ones *)
Definition byte_step (i : Z) (st : list Z * Z) : res (list Z * Z) :=
  let '(set, seed) := st in let '(rnd, seed) := wyrand seed in
  let j := wy2u0k rnd (i + 1) in
  do h <- rdz set j;
  let j := if negb (h =? 0) then i else j in
  do set <- wrz set j 1; Ok (set, seed).
Fixpoint positions (at_ : Z) (l : list Z) : list Z := match l with [] => [] | b :: l => if b =? 0 then positions (at_ + 1) l else at_ :: positions (at_ + 1) l end.
Definition byte_subset (wi xi seed : Z) : res (list Z * Z) :=
  let invert := xi / 2 <? wi in
  let wn := if invert then xi - wi else wi in
  do (set, seed) <- for_ (Z.to_nat wn) (xi - wn) byte_step (repeat 0 (Z.to_nat xi), seed);
  Ok (positions 0 (if invert then map (fun b => 1 - b) set else set), seed).
(* sysfn.c:614-640 the sorted set: keys in ascending order, each at or after its place j>>sh; xi marks a free place *)
Fixpoint shift_run (fuel : nat) (hash : list Z) (xi p h : Z) : res (list Z) :=
  if h =? xi then Ok hash else
  match fuel with O => UB | S fuel => do ht <- rdz hash (p + 1); do hash <- wrz hash (p + 1) h; shift_run fuel hash xi (p + 1) ht end.
Fixpoint insert_at (fuel : nat) (hash : list Z) (xi sh i j p : Z) : res (list Z) :=
  match fuel with
  | O => UB
  | S fuel =>
    do h <- rdz hash p;
    if j <? h then do hash <- wrz hash p j; shift_run (length hash) hash xi p h
    else if h =? j then (if j =? i then Ok hash else insert_at fuel hash xi sh i i (Z.shiftr i sh))
    else insert_at fuel hash xi sh i j (p + 1)
  end.
Fixpoint halvings (fuel : nat) (xt wi sh : Z) : res Z := if wi <=? xt then match fuel with O => UB | S f => halvings f (Z.shiftr xt 1) wi (sh + 1) end else Ok sh.
Definition sorted_subset (wi xi seed : Z) : res (list Z * Z) :=
  do sh <- halvings 32 (xi / 4) wi 0;
  let sz := Z.shiftr (xi - 1) sh + 1 + wi in
  do (hash, seed) <- for_ (Z.to_nat wi) (xi - wi) (fun i st => let '(hash, seed) := st in let '(rnd, seed) := wyrand seed in
      let j := wy2u0k rnd (i + 1) in
      do hash <- insert_at (2 * length hash + 2) hash xi sh i j (Z.shiftr j sh); Ok (hash, seed)) (repeat xi (Z.to_nat sz), seed);
  Ok (filter (fun h => negb (h =? xi)) hash, seed).                  (* filter_ne_i32 (slash.c) keeps those that are not xi *)
(* sysfn.c:585-644 rand_subset_c2 *)
Definition subset_c2 (wi xi seed : Z) : res (list Z * Z) :=
  if wi <? 0 then Err else if xi <? 0 then Err else if xi <? wi then Err else
  if wi =? 0 then Ok ([], seed) else
  if wi =? xi then Ok (iota xi, seed) else
  if xi / 8 <? wi then byte_subset wi xi seed else sorted_subset wi xi seed.

(* the namespace made by •MakeRand (sysfn.c:659-668): 𝕩 has the bits u; every function reads the state with RAND_START and leaves it with RAND_END *)
Inductive call : Type := Range1 (x : Z) | Range2 (w : list Z) (x : Z) | Deal1 (x : Z) | Deal2 (w x : Z) | Subset2 (w x : Z).
Inductive answer : Type := Number (v : number) | Array (sh : list Z) (l : list number) | List (l : list Z).
Definition do_call (c : call) (junk : list Z) (seed : Z) : res (answer * Z) :=
  match c with
  | Range1 x => do (v, seed) <- range_c1 x seed; Ok (Number v, seed)
  | Range2 w x => do r <- range_shape_c2 w x seed junk; let '(sh, l, seed) := r in Ok (Array sh l, seed)
  | Deal1 x => do (l, seed) <- deal_c1 x seed junk; Ok (List l, seed)
  | Deal2 w x => do (l, seed) <- deal_c2 w x seed junk; Ok (List l, seed)
  | Subset2 w x => do (l, seed) <- subset_c2 w x seed; Ok (List l, seed)
  end.
Fixpoint session (u : Z) (calls : list (call * list Z)) : res (list answer) :=
  match calls with
  | [] => Ok []
  | (c, junk) :: calls => do (a, seed) <- do_call c junk (flip u); do l <- session seed calls; Ok (a :: l)
  end.
