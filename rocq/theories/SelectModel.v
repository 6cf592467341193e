(** Model of Select with an array of numbers: select_c2 of src/builtins/select.c (SINGELI=0). *)
From Verif Require Import Base BitsModel SqueezeModel WidenModel SlashModel SlashModel2 SlashModel3.
From Coq Require Import List.

(* core/stuff.h:75 WRAP *)
Definition WRAP (xn v : Z) : res Z := let u := to_u 64 v in if xn <=? u then let u := to_u 64 (v + xn) in if xn <=? u then Err else Ok u else Ok u.

Section Cells.
Context {A : Type}.
(* select.c:474 CASEW, 544-545 (objects), 622-624 (generic, typed integers): wrap, check and read one index at a time. The message is the same kind of error everywhere *)
Fixpoint sel_each (xs : list A) (xn : Z) (l : list Z) : res (list A) :=
  match l with [] => Ok [] | e :: l => do n <- WRAP xn e; do v <- xat xs n; do r <- sel_each xs xn l; Ok (v :: r) end.
(* select.c:473 CASE *)
Fixpoint sel_off (xs : list A) (off : Z) (l : list Z) : res (list A) :=
  match l with [] => Ok [] | e :: l => do v <- xat xs (off + e); do r <- sel_off xs off l; Ok (v :: r) end.
(* select.c:482 *)
Definition minmax (l : list Z) (e : Z) : Z * Z := fold_left (fun '(mn, mx) e => (if e <? mn then e else mn, if mx <? e then e else mx)) l (e, e).
(* select.c:480-494 CPUSEL for integers of k = 8 or 16 bits; [next]: the whole again with 𝕨 widened (487) *)
Definition sel_fix (k xn e : Z) : Z := to_s k (e + Z.land (to_s k xn) (if e <? 0 then -1 else 0)).
Fixpoint sel_blocks (fuel : nat) (k : Z) (next : res (list A)) (xs : list A) (xn : Z) (l : list Z) (out : list A) : res (list A) :=
  match l with
  | [] => Ok out
  | e :: _ => match fuel with
    | O => UB
    | S f =>
      let bl := Z.to_nat (2 ^ 14 / (k / 8)) in
      let b := firstn bl l in
      let '(mn, mx) := minmax (tl b) e in
      if mn <? - xn then Err else if xn <=? mx then Err else
      if (0 <=? mx) && (mn <? 0) && (2 ^ (k - 1) <? xn) then next else
      do r <- (if 0 <=? mx then if mn <? 0 then sel_off xs 0 (map (sel_fix k xn) b) else sel_off xs 0 b else sel_off xs xn b);
      sel_blocks f k next xs xn (skipn bl l) (out ++ r)
    end
  end.
Definition sel32 (xs : list A) (xn : Z) (l : list Z) : res (list A) := sel_each xs xn l.
Definition sel16 (xs : list A) (xn : Z) (l : list Z) : res (list A) := sel_blocks (S (length l)) 16 (sel32 xs xn l) xs xn l [].
Definition sel8 (xs : list A) (xn : Z) (l : list Z) : res (list A) := sel_blocks (S (length l)) 8 (sel16 xs xn l) xs xn l [].
Definition sel_ints (k : Z) (xs : list A) (xn : Z) (l : list Z) : res (list A) := if k =? 8 then sel8 xs xn l else if k =? 16 then sel16 xs xn l else sel32 xs xn l.
(* select.c:619-641 generic_l; bits: 621, other numbers: 631-638 *)
Fixpoint sel_bits (xs : list A) (xn : Z) (l : list bool) : res (list A) :=
  match l with [] => Ok [] | b :: l => let c := if b then 1 else 0 in if xn <=? c then Err else do v <- xat xs c; do r <- sel_bits xs xn l; Ok (v :: r) end.
Fixpoint sel_slow (xs : list A) (xn : Z) (l : list (option Z)) : res (list A) :=
  match l with
  | [] => Ok []
  | Some z :: l => if (z <? - 2 ^ 63) || (2 ^ 63 <=? z) then Err else do n <- WRAP xn z; do v <- xat xs n; do r <- sel_slow xs xn l; Ok (v :: r)
  | None :: l => Err
  end.
(** the bits of a bit array, read one at a time by bitp_get *)
Fixpoint get_bits (n : nat) (wp : list Z) (i : Z) : res (list bool) := match n with O => Ok [] | S n => do w <- rdz wp (i / 64); do r <- get_bits n wp (i + 1); Ok (Z.testbit w (i mod 64) :: r) end.
(* select.c:568-582: bits select from two elements. [bit_sel] (utils/bits.c:39-95) is modelled as its element-wise choice *)
Fixpoint any_word (n : nat) (wp : list Z) (i : Z) : res bool := match n with O => Ok false | S n => do w <- rdz wp i; if negb (w =? 0) then Ok true else any_word n wp (i + 1) end.
Definition sel_bitw (xs : list A) (xn : Z) (wp : list Z) (wia : Z) : res (list A) :=
  do x0 <- xat xs 0;
  do x1 <- (if xn <? 2 then
      do a <- any_word (Z.to_nat (wia / 64)) wp 0;
      do b <- (if a then Ok true else if wia mod 64 =? 0 then Ok false else do w <- rdz wp (wia / 64); Ok (negb (Z.land w (Z.ones (wia mod 64)) =? 0)));
      if b then Err else Ok x0
    else xat xs 1);
  do l <- get_bits (Z.to_nat wia) wp 0;
  Ok (map (fun b : bool => if b then x1 else x0) l).

(** how 𝕩 is stored: elements of 8 to 64 bits or cells of them of these sizes; single objects; other cells, boxed or not. [rank1]: 𝕩 is a list; [narrow]: a cell has less than 128 bits *)
Inductive xcls := XTyped | XObj | XOther (boxed : bool).
Variables (sq : cnts -> cnts).
Definition sel_gen (boxed : bool) (c : cnts) (xs : list A) (xn : Z) : res (list A) :=
  match c with
  | CB wp n => do l <- get_bits (Z.to_nat n) wp 0; if boxed then sel_slow xs xn (map (fun b : bool => Some (if b then 1 else 0)) l) else sel_bits xs xn l
  | CI _ l => if boxed then sel_slow xs xn (map Some l) else sel_each xs xn l
  | CF l => sel_slow xs xn l
  end.
(* select.c:563-610 the switch, after a squeeze if the elements are not small integers; a squeezed float array goes to generic_l *)
Definition sel_num (cl : xcls) (rank1 narrow : bool) (c : cnts) (xs : list A) (xn : Z) : res (list A) :=
  let boxed := match cl with XTyped => false | XObj => true | XOther b => b end in
  match c with
  | CB wp n => if rank1 then sel_bitw xs xn wp n else if negb boxed && narrow then
      do l <- get_bits (Z.to_nat n) wp 0; let l := map (fun b : bool => if b then 1 else 0) l in match cl with XTyped => sel8 xs xn l | _ => sel_each xs xn l end
    else sel_gen boxed c xs xn
  | CI k l => match cl with XTyped => sel_ints k xs xn l | XObj => sel_each xs xn l | XOther _ => sel_gen boxed c xs xn end
  | CF _ => sel_gen boxed c xs xn
  end.
(* select.c:402-610 select_c2 for an array of numbers 𝕨 and the cells xs of 𝕩, which have elements; one index (429-451): o2i64 and WRAP *)
Definition select_c2 (cl : xcls) (rank1 narrow squoze : bool) (c : cnts) (xs : list A) : res (list A) :=
  let xn := Z.of_nat (length xs) in
  let wia := c_ia c in
  if wia =? 0 then Ok [] else
  if wia =? 1 then (do l <- (match c with CB wp n => do l <- get_bits 1 wp 0; Ok (map (fun b : bool => Some (if b then 1 else 0)) l) | CI _ l => Ok (map Some l) | CF l => Ok l end); sel_slow xs xn l) else
  if xn =? 0 then Err else
  match c with
  | CF _ => if squoze then sel_gen (match cl with XTyped => false | XObj => true | XOther b => b end) c xs xn else sel_num cl rank1 narrow (sq c) xs xn
  | _ => sel_num cl rank1 narrow c xs xn
  end.
(* select.c:614 with cells that have no elements: they are in class 7 of arrFns.h:84-93, and so at least two numbers as 𝕨 always reach generic_l, which returns the empty result (the count of its cells is given here); for no index or one index the code is that above *)
Definition select_c2_empty_cells (rank1 narrow squoze : bool) (c : cnts) (xs : list A) : res Z :=
  if c_ia c <=? 1 then (do r <- select_c2 (XOther false) rank1 narrow squoze c xs; Ok (Z.of_nat (length r))) else
  if Z.of_nat (length xs) =? 0 then Err else Ok (c_ia c).
End Cells.

(* select.c:526-536 TYPE with xl==0: single bits, from the last index down *)
Fixpoint bits_down (n : nat) (wp : list Z) (xp : list Z) (xn b : Z) (rp : list Z) : res (list Z) :=
  match n with
  | O => Ok rp
  | S m => let i := Z.of_nat m in
    match nth_error wp m with
    | None => UB
    | Some e => do k <- WRAP xn e; do w <- rdz xp (k / 64);
      let b := to_u 64 (2 * b + (if Z.testbit w (k mod 64) then 1 else 0)) in
      do rp <- (if i mod 64 =? 0 then wrz rp (i / 64) b else Ok rp);
      bits_down m wp xp xn b rp
    end
  end.
Definition select_bits (junk : Z) (wl : list Z) (xp : list Z) (xn : Z) : res (list Z) := bits_down (length wl) wl xp xn 0 (repeat junk (Z.to_nat (BIT_N (Z.of_nat (length wl))))).
(* select_c2 for 𝕩 of single bits: select.c:513-524 ([wide]: the heuristic choice to work on bytes), 526-536, 563-610 *)
Definition sel_num_bitx (junk : Z) (rank1 : bool) (c : cnts) (xp : list Z) (xn : Z) : res (list bool) :=
  do xs <- get_bits (Z.to_nat xn) xp 0;
  match c with
  | CB wp n => if rank1 then sel_bitw xs xn wp n else
      do l <- get_bits (Z.to_nat n) wp 0; do rp <- select_bits junk (map (fun b : bool => if b then 1 else 0) l) xp xn; get_bits (Z.to_nat n) rp 0
  | CI _ l => do rp <- select_bits junk l xp xn; get_bits (length l) rp 0
  | CF _ => sel_gen false c xs xn
  end.
Definition select_c2_bitx (sq : cnts -> cnts) (junk : Z) (rank1 wide squoze : bool) (c : cnts) (xp : list Z) (xn : Z) : res (list bool) :=
  do xs <- get_bits (Z.to_nat xn) xp 0;
  if (c_ia c <=? 1) || (xn =? 0) || wide then select_c2 sq XTyped rank1 true squoze c xs else
  match c with
  | CF _ => if squoze then sel_gen false c xs xn else sel_num_bitx junk rank1 (sq c) xp xn
  | _ => sel_num_bitx junk rank1 c xp xn
  end.
