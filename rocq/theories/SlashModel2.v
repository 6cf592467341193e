(** Model of usum (src/builtins/fold.c) and of Indices, slash_c1 (src/builtins/slash.c). *)
From Verif Require Import Base BitsModel SqueezeModel WidenModel SlashModel.
From Coq Require Import List.

(** A list of counts: bits, signed integers of k bits, or doubles. A double (or an element of a mixed array) is [Some z] if it is the whole number z of at most 64 bits, and [None] otherwise. *)
Inductive cnts := CB (src : list Z) (n : Z) | CI (k : Z) (l : list Z) | CF (l : list (option Z)).
Definition c_ia (c : cnts) : Z := match c with CB _ n => n | CI _ l => Z.of_nat (length l) | CF l => Z.of_nat (length l) end.

(* fold.c:414-422 usum_generic; addOn is checked addition to 64 bits *)
Fixpoint usum_generic (l : list (option Z)) (r : Z) : res Z :=
  match l with
  | [] => Ok r
  | Some c :: l => if (c <? 0) || (2 ^ 64 <=? c) then Err else if 2 ^ 64 <=? r + c then Err else usum_generic l (r + c)
  | None :: l => Err
  end.
(* fold.c:429-430 usum, blocks of 2^k elements of k bits, summed in 2k bits *)
Definition block_acc (k : Z) (st : Z * Z) (p : Z) : Z * Z := let '(m, s) := st in (Z.lor m p, to_s (2 * k) (s + p)).
Fixpoint usum_blocks (fuel : nat) (k : Z) (l all : list Z) (m r : Z) : res Z :=
  match l with
  | [] => Ok r
  | _ => match fuel with
    | O => UB
    | S f =>
      let n := Z.to_nat (Z.min (2 ^ k) (Z.of_nat (length l))) in
      let '(m, s) := fold_left (block_acc k) (firstn n l) (m, 0) in
      if m <? 0 then usum_generic (map Some all) 0
      else let r := r + to_u (2 * k) s in
      if 2 ^ 64 <=? r then Err else usum_blocks f k (skipn n l) all m r
    end
  end.
(* fold.c:431 usum, el_i32; either overflow or a negative element is an error *)
Fixpoint usum_i32 (l all : list Z) (m r : Z) : res Z :=
  match l with
  | [] => if m <? 0 then usum_generic (map Some all) 0 else Ok r
  | p :: l => let m := Z.lor m p in
    if (r + p <? 0) || (2 ^ 64 <=? r + p) then (if m <? 0 then usum_generic (map Some all) 0 else Err) else usum_i32 l all m (r + p)
  end.
(* fold.c:423-448 usum *)
Definition usum (c : cnts) : res Z :=
  match c with
  | CB src n => bit_sum src 0 n
  | CI k l => if k <=? 16 then usum_blocks (S (length l)) k l l 0 0 else usum_i32 l l 0 0
  | CF l => usum_generic l 0
  end.

(** copying the i-th value of [xs] as often as the i-th count says, to place r of dst *)
Fixpoint put (n : nat) (v : Z) (dst : list Z) (r : Z) : res (list Z * Z) := match n with O => Ok (dst, r) | S n => do dst <- wrz dst r v; put n v dst (r + 1) end.
(* slash.c:600-605 DENSE_IND(T) *)
Fixpoint dense_ind (tr : Z -> Z) (cs : list Z) (i : Z) (dst : list Z) (r : Z) : res (list Z) :=
  match cs with [] => Ok dst | c :: cs => do (dst, r) <- put (Z.to_nat c) (tr i) dst r; dense_ind tr cs (i + 1) dst r end.
(* slash.c:608 *)
Fixpoint trim_rev (l : list Z) : list Z := match l with 0 :: l => trim_rev l | _ => l end.
Definition trim (l : list Z) : list Z := rev (trim_rev (rev l)).
(* o2s of an element: slash.c:581, 589; h.h:516. The size type is larger than umax; no count reaches it here *)
Definition o2s (umax : Z) (e : option Z) : res Z := match e with Some z => if (z <? 0) || (umax <? z) then Err else Ok z | None => Err end.
(* slash.c:580-583, 588-591 *)
Fixpoint slow_ind (umax : Z) (tr : Z -> Z) (cs : list (option Z)) (i : Z) (dst : list Z) (r : Z) : res (list Z) :=
  match cs with [] => Ok dst | e :: cs => do c <- o2s umax e; do (dst, r) <- put (Z.to_nat c) (tr i) dst r; slow_ind umax tr cs (i + 1) dst r end.

Section C1.
Variables (junk umax : Z) (sq : cnts -> cnts).   (* umax: the largest number of elements; sq: squeeze_numTry *)
(* slash.c:566-617 slash_c1, rank 1 *)
Definition slash_c1 (x : cnts) : res (list Z) :=
  do s <- usum x;
  if umax <=? s then Err else
  if s =? 0 then Ok [] else
  let xia := c_ia x in
  let x := match x with CB _ _ => x | _ => if s <=? xia then sq x else x end in
  match x with
  | CB src n => where_ junk src xia s
  | CI k l =>
    if 2 ^ 31 <? xia then slow_ind umax (fun i => i) (map Some l) 0 (mem junk s) 0
    else let l := trim l in
      let n := Z.of_nat (length l) in
      dense_ind (if n <=? 128 then to_s 8 else if n <=? 32768 then to_s 16 else to_s 32) l 0 (mem junk s) 0
  | CF l => slow_ind umax (if 2 ^ 31 <? xia then (fun i => i) else to_s 32) l 0 (mem junk s) 0
  end.
End C1.
