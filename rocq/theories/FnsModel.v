(** Model of Range (monadic ↕), Windows (dyadic ↕), Shape (monadic ≢) and Find (⍷) of src/builtins/fns.c.
    Simplified: reference counts (C05), fills of windows (that of 𝕩, handed over) and allocation failure are left out. The copies of a typed array builder (C47), comparison of a typed list with an atom (C16),
    the number of ones (C23) and Indices of a boolean list (C22) are taken as what those properties say they are; boolean lists are lists of [bool] except in the loop that counts in packed words.
    An array is its shape and its elements in order. *)
From Verif Require Import Base BitsModel SqueezeModel ReuseModel TransSpec RevBitModel.
From Coq Require Import List.
Open Scope Z_scope.

(* h.h:516 o2s: a whole number that fits usz *)
Definition o2s (v : val) : res Z := match v with VNum z => if (0 <=? z) && (z <? 2 ^ 32) then Ok z else Err | _ => Err end.
Fixpoint o2s_all (l : list val) : res (list Z) := match l with [] => Ok [] | v :: l => do z <- o2s v; do r <- o2s_all l; Ok (z :: r) end.

(** ** Range *)
(* fns.c:10-14 intRange16 and 15-22 intRange32, with s = 0 *)
Definition intRange (k : Z) (n : nat) : list Z := map (fun i => to_s k (to_s k (Z.of_nat i))) (seq 0 n).
(* fns.c:23-33 intRangeF64: blocks of 16; every number here is a whole number below 2^53, so the sums of doubles are exact *)
Fixpoint f64_blocks (b : nat) (c : Z) : list Z * Z :=
  match b with O => ([], c) | S b => let (l, d) := f64_blocks b (c + 16) in (map (fun j => c + Z.of_nat j) (seq 0 16) ++ l, d) end.
Definition intRangeF64 (n : Z) : list Z :=
  let (l, c) := f64_blocks (Z.to_nat (n / 16)) 0 in l ++ map (fun j => c + Z.of_nat j) (seq 0 (Z.to_nat (Z.land n 15))).
(* fns.c:135-147 ud_c1 of an atom, with 34-40 intRange; the lists of 0 to 2 elements are made when the program starts (builtins.c) *)
Definition range_atom (x : val) : res (el * list Z) :=
  do xu <- o2s x;
  if xu <=? 2 then Ok (EBit, match xu with 0 => [] | 1 => [0] | _ => [0; 1] end) else
  if xu <=? 127 + 1 then Ok (EI8, map (fun i => to_s 8 (Z.of_nat i)) (seq 0 (Z.to_nat xu))) else
  let last := xu - 1 in
  if last <=? 32767 then Ok (EI16, intRange 16 (Z.to_nat xu)) else
  if last <=? 2147483647 then Ok (EI32, intRange 32 (Z.to_nat xu)) else Ok (EF64, intRangeF64 xu).

(* fns.c:41-61 ud_rec_T: [pos] is the memory shared by the recursion, the lists made come in the order they are stored in *)
Fixpoint for_i {S} (f : nat -> S -> res S) (i n : nat) (s : S) : res S := match n with O => Ok s | Datatypes.S n => do s <- f i s; for_i f (i + 1)%nat n s end.
Fixpoint ud_rec (k : Z) (fuel : nat) (d r : nat) (pos : list Z) (sh : list Z) (out : list (list Z)) : res (list Z * list (list Z)) :=
  match fuel with
  | O => UB
  | S fuel =>
    do cl <- rd sh d;
    if (d + 1 =? r)%nat then
      for_i (fun i '(pos, out) =>
        do p1 <- for_i (fun i p1 => do v <- rd pos i; wr p1 i v) 0 d (repeat 0 r);
        do p1 <- wr p1 d (to_s k (Z.of_nat i)); Ok (pos, out ++ [p1])) 0 (Z.to_nat cl) (pos, out)
    else
      for_i (fun i '(pos, out) => do pos <- wr pos d (to_s k (Z.of_nat i)); ud_rec k fuel (d + 1) r pos sh out) 0 (Z.to_nat cl) (pos, out)
  end.
(* fns.c:65-68 bit_reverse64_low *)
Definition bit_reverse64_low (x : Z) (n : Z) : Z := Z.shiftr (bit_reverse64 x) (64 - n).
(** the first [n] bits of a word *)
Definition word_bits (n : nat) (w : Z) : list Z := map (fun k => Z.b2z (Z.testbit w (Z.of_nat k))) (seq 0 n).
(* fns.c:106-111 *)
Fixpoint count_bits (n : nat) (m c : Z) (i : nat) : list (list Z) :=
  match i with O => [] | S i => word_bits n (bit_reverse64_low (Z.land c (Z.lnot m)) (Z.of_nat n)) :: count_bits n m (to_u 64 (Z.lor c m + 1)) i end.
(* the word loaded from a boolean list: its bits, with the contents of the memory after them above *)
Fixpoint bits_word (l : list bool) (junk : Z) : Z := match l with [] => junk | b :: l => Z.b2z b + 2 * bits_word l junk end.
(* fns.c:102-105 *)
Definition count_mask (x : list Z) (junk : Z) : Z :=
  let xia := Z.of_nat (length x) in
  let m := bit_reverse64_low (to_u 64 (Z.lnot (to_u 64 (bits_word (map (fun c => c =? 2) x) junk)))) xia in
  if xia <? 64 then Z.land m (2 ^ xia - 1) else m.
(* fns.c:82-91: product with its overflow mark, least, greatest *)
Fixpoint scan_lens (l : list Z) (bad : bool) (ria mn mx : Z) : bool * Z * Z * Z :=
  match l with [] => (bad, ria, mn, mx) | c :: l => scan_lens l (bad || (2 ^ 32 <=? ria * c)) (to_u 32 (ria * c)) (Z.min mn c) (Z.max mx c) end.
(* fns.c:70-131 list_range. [pos]: the stack memory used for positions; [junk]: memory after the boolean list. Result: shape, elements, fill element. A recursion that stores more elements than were allocated is undefined. *)
Definition range_list (pos : list Z) (junk : Z) (xrank : nat) (x : list val) : res (list Z * list (list Z) * list Z) :=
  let xia := Z.of_nat (length x) in
  if negb (xrank =? 1)%nat then Err else
  if 255 <? xia then Err else
  match x with
  | [] => Ok ([], [[]], [])
  | x0 :: xs =>
    do c0 <- o2s x0; do cs <- o2s_all xs;
    let '(bad, ria, mn, mx) := scan_lens cs false c0 c0 c0 in
    if (bad && negb (mn =? 0)) || (1 + 2147483647 <? mx) then Err else
    let sh := c0 :: cs in
    if negb (ria =? 0) then
      let rec k := do (_, l) <- ud_rec k (length x) 0 (length x) pos sh []; if (length l =? Z.to_nat ria)%nat then Ok l else UB in
      do l <- (if (mx =? 2) && (xia <=? 64) then let m := count_mask sh junk in Ok (count_bits (length x) m m (Z.to_nat ria))
               else if mx <=? 1 + 127 then rec 8 else if mx <=? 1 + 32767 then rec 16 else rec 32);
      do f <- rd l 0; Ok (sh, l, f)
    else Ok (sh, [], repeat 0 (length x))
  end.

(** ** Windows *)
Section W.
Context {A : Type}.
(* mut_copyG(r, i, x, j, n) at positions of type usz *)
Definition copy_to (r : list (option A)) (i : Z) (x : list A) (j n : Z) : res (list (option A)) :=
  for_i (fun k r => do v <- rd x (Z.to_nat j + k); wr r (Z.to_nat i + k) (Some v)) 0 (Z.to_nat n) r.
(* every element of the result has been written *)
Fixpoint all_set (r : list (option A)) : res (list A) := match r with [] => Ok [] | Some v :: r => do r <- all_set r; Ok (v :: r) | None :: _ => UB end.
(* fns.c:177-184 *)
Fixpoint win_axes (xsh wsh : list Z) (empty : bool) {struct wsh} : res (list Z * bool) :=
  match wsh with
  | [] => Ok ([], empty)
  | m :: wsh => match xsh with
    | [] => UB
    | h :: xsh => let l := to_u 32 (h + 1) in if l <? m then Err else do (r, e) <- win_axes xsh wsh (empty || (m =? 0) || (m =? l)); Ok (l - m :: r, e)
    end
  end.
(* mulOn over a list of lengths *)
Fixpoint mul_all (p : Z) (l : list Z) : res Z := match l with [] => Ok p | c :: l => if 2 ^ 32 <=? p * c then Err else mul_all (p * c) l end.
(* fns.c:206 *)
Fixpoint win_loop1 (fuel : nat) (x : list A) (ria k cia i j : Z) (r : list (option A)) : res (list (option A)) :=
  match fuel with
  | O => UB
  | S fuel => if i <? ria then do r <- copy_to r i x j k; win_loop1 fuel x ria k cia (to_u 32 (i + k)) (to_u 32 (j + cia)) r else Ok r
  end.
(* fns.c:215-221: the odometer; [a] and [b] are usz, so below 0 they leave the arrays *)
Fixpoint win_bump (fuel : nat) (rsh xsh : list Z) (cia wr_ : Z) (ri : list Z) (a b str j : Z) : res (list Z * Z) :=
  match fuel with
  | O => UB
  | S fuel =>
    do c <- (if a <? 0 then UB else rd ri (Z.to_nat a)); do n <- rd rsh (Z.to_nat a);
    if c + 1 =? n then
      do ri <- wr ri (Z.to_nat a) 0;
      let j := to_u 32 (j - n * str) in
      do xb <- (if b <? 0 then UB else rd xsh (Z.to_nat b));
      let str := to_u 32 (str * xb) in
      let (str, b) := if b =? 0 then (cia, wr_) else (str, b) in
      win_bump fuel rsh xsh cia wr_ ri (a - 1) (b - 1) str (to_u 32 (j + str))
    else do ri <- wr ri (Z.to_nat a) (c + 1); Ok (ri, j)
  end.
(* fns.c:208-223 *)
Fixpoint win_loop (fuel : nat) (x : list A) (rsh xsh : list Z) (ria k cia wr_ : Z) (i j : Z) (ri : list Z) (r : list (option A)) : res (list (option A)) :=
  match fuel with
  | O => UB
  | S fuel =>
    do r <- copy_to r i x j k;
    do h <- rd xsh (Z.to_nat (wr_ - 1));
    let str := to_u 32 (cia * h) in
    let i := to_u 32 (i + k) in
    if i =? ria then Ok r else
    let j := to_u 32 (j + str) in
    do (ri, j) <- win_bump (length ri) rsh xsh cia wr_ ri (2 * wr_ - 2) (wr_ - 2) str j;
    win_loop fuel x rsh xsh ria k cia wr_ i j ri r
  end.
(* 𝕨 as fns.c sees it: an atom, or an array by rank and elements *)
Inductive warg := WAtom (v : val) | WArr (rank : nat) (l : list val).
Definition w_list (w : warg) : list val := match w with WAtom v => [v] | WArr _ l => l end.
(* fns.c:151-226 ud_c2; 𝕩 is an atom or an array; the result of 2/𝕩 (C22) has every element twice, an error if they are too many to count; an atom is an array of rank 0 in the result *)
Definition windows (w : warg) (xatom : bool) (xsh : list Z) (x : list A) : res (list Z * list A) :=
  let wia := Z.of_nat (length (w_list w)) in
  if (match w with WArr r _ => (1 <? r)%nat | WAtom _ => false end) then Err else
  if wia =? 0 then Ok (xsh, x) else
  let xr := Z.of_nat (length xsh) in
  if xatom || (xr <? wia) then Err else
  if 255 <? xr + wia then Err else
  do ws <- o2s_all (w_list w);
  let xia := Z.of_nat (length x) in
  do (front, empty) <- win_axes xsh ws (xia =? 0);
  let rest := skipn (length ws) xsh in
  let rsh := front ++ ws ++ rest in
  if empty then Ok (rsh, []) else
  if (wia =? 1) && (match ws with [h] => h =? 2 | _ => false end) && (xr =? 1) then
    if 2 ^ 32 <=? 2 * xia then Err else
    let t := flat_map (fun v => [v; v]) x in Ok (rsh, firstn (length t - 2) (skipn 1 t))
  else
  do cia <- mul_all 1 rest;
  do ria <- mul_all cia (front ++ ws);
  do h <- rd rsh (Z.to_nat (2 * wia - 1));
  let k := to_u 32 (cia * h) in
  let r := repeat None (Z.to_nat ria) in
  do r <- (if wia =? 1 then win_loop1 (S (Z.to_nat ria)) x ria k cia 0 0 r
           else win_loop (Z.to_nat ria) x rsh xsh ria k cia wia 0 0 (repeat 0 (Z.to_nat (2 * wia - 1))) r);
  do l <- all_set r; Ok (rsh, l).
End W.

(** ** Shape *)
(* fns.c:233-248 fne_c1 of an array: the type is chosen by the bits of all lengths together *)
Definition shape_of (sh : list Z) : el * list Z :=
  let o := fold_left Z.lor sh 0 in
  if o <=? 127 then (EI8, map (to_s 8) sh) else if o <=? 32767 then (EI16, map (to_s 16) sh) else if o <=? 2147483647 then (EI32, map (to_s 32) sh) else (EF64, sh).

(** ** Find *)
(* equality of values; numbers that are not whole are given by their bits, so NaN is left out *)
Definition veq (a b : val) : bool :=
  match a, b with VNum x, VNum y => x =? y | VDbl x, VDbl y => x =? y | VChr x, VChr y => x =? y | VObj x, VObj y => x =? y | _, _ => false end.
(* CMP_AS_CALL(eq, r, xp + off, v, n) *)
Fixpoint cmp_as (x : list val) (off : nat) (v : val) (n : nat) : res (list bool) :=
  match n with O => Ok [] | S n => do e <- rd x off; do r <- cmp_as x (off + 1) v n; Ok (veq e v :: r) end.
Fixpoint and_all (a b : list bool) : list bool := match a, b with p :: a, q :: b => (p && q) :: and_all a b | _, _ => [] end.
Definition bsum (l : list bool) : Z := fold_right (fun b s => Z.b2z b + s) 0 l.
Fixpoint indices (i : nat) (l : list bool) : list nat := match l with [] => [] | b :: l => (if b then [i] else []) ++ indices (i + 1)%nat l end.
(* MATCH_CALL(match, w + i, x + j, n) *)
Fixpoint match_at (w x : list val) (i j n : nat) : res bool :=
  match n with O => Ok true | S n => do a <- rd w i; do b <- rd x j; if veq a b then match_at w x (i + 1) (j + 1) n else Ok false end.
(* fns.c:311-320 *)
Fixpoint verify (w x : list val) (i n : nat) (ind : list nat) (r : list bool) : res (list bool) :=
  match ind with [] => Ok r | j :: ind => do m <- match_at w x i (i + j) n; do r <- (if m then Ok r else wr r j false); verify w x i n ind r end.
(* fns.c:303-323 *)
Fixpoint find_loop (fuel : nat) (wbit : bool) (w x : list val) (rl i : nat) (r : list bool) : res (list bool) :=
  match fuel with
  | O => Ok r
  | S fuel =>
    do v <- rd w i; do e <- cmp_as x i v rl;
    let r := and_all r e in
    let s := bsum r in
    if s =? 0 then Ok r else
    if (s <? Z.of_nat rl / 16) && (Z.of_nat rl <=? 2147483647) && negb wbit then verify w x i (length w - i) (indices 0 r) r
    else find_loop fuel wbit w x rl (i + 1) r
  end.
(* fns.c:288-327: lists of atoms *)
Definition find_list (wbit : bool) (w x : list val) : res (list bool) :=
  let wl := length w in let xl := length x in
  if (xl <? wl)%nat then Ok [] else
  if (wl =? 0)%nat then Ok (repeat true (Z.to_nat (to_u 32 (Z.of_nat xl + 1)))) else
  let rl := (xl - wl + 1)%nat in
  do v <- rd w 0; do r <- cmp_as x 0 v rl;
  find_loop (wl - 1) wbit w x rl 1 r.
(* fns.c:332-366 the shape if there are no elements to compare; [None]: thrOOM *)
Fixpoint empty_lead (ia : Z) (l : list Z) : res Z := match l with [] => Ok ia | c :: l => if 2 ^ 32 <=? ia * c then Err else empty_lead (ia * c) l end.
Fixpoint empty_tail (ia : Z) (wsh xsh : list Z) : res (list Z * Z) :=
  match wsh, xsh with
  | m :: wsh, h :: xsh =>
    if h <? m then do (r, ia) <- empty_tail 0 wsh xsh; Ok (0 :: r, ia)
    else let c := to_u 32 (h + 1 - m) in if (c =? 0) || (2 ^ 32 <=? ia * c) then Err else do (r, ia) <- empty_tail (ia * c) wsh xsh; Ok (c :: r, ia)
  | [], _ => Ok ([], ia)
  | _, [] => UB
  end.
Definition find_empty (wia : Z) (wsh xsh : list Z) : res (list Z * list bool) :=
  if (1 <? length xsh)%nat then
    let lead := (length xsh - length wsh)%nat in
    do ia <- empty_lead 1 (firstn lead xsh);
    do (t, ia) <- empty_tail ia wsh (skipn lead xsh);
    Ok (firstn lead xsh ++ t, repeat true (Z.to_nat ia))
  else let ia := if wia =? 0 then 1 else 0 in Ok ([ia], repeat true (Z.to_nat ia)).
(* cells.c for_cells_SA with Find on each row of a table (C46) *)
Fixpoint find_rows (n : nat) (wbit : bool) (w x : list val) (c : nat) : res (list bool) :=
  match n with O => Ok [] | S n => do r <- find_list wbit w (firstn c x); do t <- find_rows n wbit w (skipn c x) c; Ok (r ++ t) end.
(** How an operand is stored: an atom, an array of atoms of one type (bits or not), or an array of values *)
Inductive kind := KAtom | KBits | KTyped | KVals.
Definition typed (k : kind) : bool := match k with KAtom | KVals => false | _ => true end.
Definition is_bits (k : kind) : bool := match k with KBits => true | _ => false end.
Definition is_atom (k : kind) : bool := match k with KAtom => true | _ => false end.
(* fns.c:274-396 find_c2. [None]: the operands go to the definition of ⍷ in BQN, which is not modelled. An atom has no shape and one element. *)
Definition find (wk : kind) (wsh : list Z) (w : list val) (xk : kind) (xsh : list Z) (x : list val) : res (option (list Z * list bool)) :=
  let wr := length wsh in let xr := length xsh in
  if (xr <? wr)%nat then Err else
  if (xr =? 1)%nat && typed xk && (is_atom wk || typed wk) then
    if (wr =? 0)%nat then do v <- rd w 0; do r <- cmp_as x 0 v (length x); Ok (Some (xsh, r))
    else do r <- find_list (is_bits wk) w x; Ok (Some ([Z.of_nat (length r)], r))
  else if (wr =? 0)%nat then do v <- rd w 0; do r <- cmp_as x 0 v (length x); Ok (Some (xsh, r))
  else
  let wia := Z.of_nat (length w) in
  if (length x =? 0)%nat then do r <- find_empty wia wsh xsh; Ok (Some r)
  else if (wr =? 1)%nat && (xr =? 2)%nat then
    do c <- rd xsh 1; do n <- rd xsh 0;
    if c <? wia then do r <- find_empty wia wsh xsh; Ok (Some r)
    else if typed xk && typed wk then
      let rl := if wia =? 0 then to_u 32 (c + 1) else c - wia + 1 in
      if 2 ^ 32 <=? n * rl then Err else                                       (* mut.c: the size of the merged result *)
      do l <- find_rows (Z.to_nat n) (is_bits wk) w x (Z.to_nat c); Ok (Some ([n; rl], l))
    else Ok None
  else Ok None.
