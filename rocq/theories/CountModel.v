(** Model of the inverse of Indices, /⁼: src/builtins/slash.c 887-1029, portable code (no SINGELI_SIMD), with the default 32-bit size type.
    Squeezing of the result is left out (SqueezeModel); characters and mixed arrays are squeezed first and are lists without numbers only
    when that fails, so they are [CF] with [None] elements here; bits of the result are written one by one. *)
From Verif Require Import Base BitsModel SqueezeModel SlashModel SlashModel2.
From Coq Require Import ZArith List Bool.
Import ListNotations.
Open Scope Z_scope.
(* h.h:172 CHECK_IA for elements of w bytes; numarr.h CHECK_BITARR_IA *)
Definition alloc (w ia : Z) : res (list Z) := if 2 ^ 31 / w - 1000 <? ia then Err else Ok (repeat 0 (Z.to_nat ia)).
Definition alloc_bits (ia : Z) : res (list Z) := if 2 ^ 32 - 1 - 65 <? ia then Err else Ok (repeat 0 (Z.to_nat ia)).
(* slash.c:986 t[xp[i]]++ in usz, 1014 rp[(usz)xp[i]]++ in i32: a signed overflow is undefined *)
Definition inc_usz (c : Z) : res Z := Ok (to_u 32 (c + 1)).
Definition inc_i32 (c : Z) : res Z := if c =? 2 ^ 31 - 1 then UB else Ok (c + 1).
Fixpoint bump (inc : Z -> res Z) (l t : list Z) : res (list Z) := match l with [] => Ok t | v :: l => do c <- rdz t v; do c <- inc c; do t <- wrz t v c; bump inc l t end.
(* slash.c:1010 bitp_set(rp, xp[i], 1) *)
Fixpoint mark (l t : list Z) : res (list Z) := match l with [] => Ok t | v :: l => do t <- wrz t v 1; mark l t end.
(* slash.c:978-989 CASE(N) *)
Definition im_int (k : Z) (l : list Z) : res (list Z) :=
  let max := fold_left (fun m c => if m <? to_u k c then to_u k c else m) (tl l) (to_u k (hd 0 l)) in
  if to_s k max <? 0 then Err else
  let ria := to_u 32 (max + 1) in
  do t <- bump inc_usz l (repeat 0 (Z.to_nat ria));
  if Z.of_nat (length l) <=? 2 ^ 31 - 1 then do _ <- alloc 4 ria; Ok (map (to_s 32) t)
  else do _ <- alloc 8 ria; Ok t.
(* h.h:496 q_fusz: what the cast gives for a double that does not fit is a number that fits, so the comparison fails *)
Definition q_fusz (e : option Z) : bool := match e with Some z => (0 <=? z) && (z <? 2 ^ 32) | None => false end.
(* slash.c:1004: as long as 𝕩 ascends; gives max and the rest *)
Fixpoint f64_asc (l : list (option Z)) (max : Z) : res (Z * list (option Z)) :=
  match l with
  | [] => Ok (max, [])
  | e :: l' => if negb (q_fusz e) then Err else match e with Some c => if c <=? max then Ok (max, l) else f64_asc l' c | None => Err end
  end.
(* slash.c:1005 *)
Fixpoint f64_max (l : list (option Z)) (max : Z) : res Z :=
  match l with
  | [] => Ok max
  | e :: l => if negb (q_fusz e) then Err else match e with Some c => f64_max l (if max <? c then c else max) | None => Err end
  end.
Definition znum (e : option Z) : Z := match e with Some z => z | None => 0 end.
(* slash.c:1002-1017; [cv] is what casting the double 2^32 to usz gives: undefined in C, 0 on x86-64 *)
Definition im_f64 (cv : Z) (l : list (option Z)) : res (list Z) :=
  do (max, rest) <- f64_asc l (-1);
  do max <- f64_max rest max;
  let ria := if max + 1 <? 2 ^ 32 then max + 1 else cv in
  if ria =? 0 then Err else
  match rest with
  | [] => do r <- alloc_bits ria; mark (map znum l) r
  | _ => if 2 ^ 31 - 1 <? Z.of_nat (length l) then Err else do r <- alloc 4 ria; bump inc_i32 (map znum l) r
  end.
(* slash.c:891-1029 slash_im *)
Definition slash_im (cv : Z) (x : cnts) : res (list Z) :=
  let xia := c_ia x in
  if xia =? 0 then Ok [] else
  match x with
  | CB src n =>
    do sum <- bit_sum src 0 n;
    let pos := if 0 <? sum then 1 else 0 in
    let r := repeat 0 (Z.to_nat (1 + pos)) in
    do r <- wrz r pos sum;
    wrz r 0 (to_u 32 (n - sum))
  | CI k l => im_int k l
  | CF l => im_f64 cv l
  end.
