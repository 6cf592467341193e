(** Model of Replicate, slash_c2 of src/builtins/slash.c, for cells that are not single bits. *)
From Verif Require Import Base BitsModel SqueezeModel WidenModel SlashModel SlashModel2 SlashModel3.
From Coq Require Import List.

(** 𝕨: a list of counts or one number *)
Inductive wspec := WArr (c : cnts) | WAtom (v : Z).

Section C2.
Context {A : Type}.
(** junk: what new memory holds; umax: USZ_MAX; amax: arrays of that many elements or more are refused when allocated (CHECK_IA, h.h:168-177); ub: bits of the size type; sq: squeeze_numTry; csz: elements in a cell *)
Variables (junk umax amax ub : Z) (sq : cnts -> cnts) (csz : Z).
(* slash.c:733-739 CASE (array 𝕨) and 815-820 CASE (constant): *rp++ = x, repeated *)
Fixpoint put_cells (n : nat) (v : A) (cap : Z) (out : list A) : res (list A) := match n with O => Ok out | S n => do out <- emit cap [v] out; put_cells n v cap out end.
Fixpoint dense_rep (cs : list Z) (xs : list A) (i cap : Z) (out : list A) : res (list A) :=
  match cs with [] => Ok out | c :: cs => do v <- xat xs i; do out <- put_cells (Z.to_nat c) v cap out; dense_rep cs xs (i + 1) cap out end.
(* mut_copyG(r0, ri, x, i*csz, csz); ri+= csz: one cell, [cap] counts elements *)
Definition copy_cell (v : A) (cap : Z) (out : list A) : res (list A) := if (Z.of_nat (length out) + 1) * csz <=? cap then Ok (out ++ [v]) else UB.
Fixpoint copy_cells (n : nat) (v : A) (cap : Z) (out : list A) : res (list A) := match n with O => Ok out | S n => do out <- copy_cell v cap out; copy_cells n v cap out end.
(* slash.c:682-684; the fill of csz==1 (684) writes the same elements *)
Fixpoint slow_rep (cs : list (option Z)) (xs : list A) (i cap : Z) (out : list A) : res (list A) :=
  match cs with [] => Ok out | e :: cs => do c <- o2s umax e; do v <- (if c =? 0 then Ok None else do v <- xat xs i; Ok (Some v)); do out <- (match v with Some v => copy_cells (Z.to_nat c) v cap out | None => Ok out end); slow_rep cs xs (i + 1) cap out end.
Definition welts (c : cnts) : list (option Z) := match c with CB _ _ => [] | CI _ l => map Some l | CF l => l end.
(* slash.c:673-685 arrW_base. The test of s comes after the multiplication, whose overflow is not tested; ria is then tested when memory is allocated *)
Definition arrW_base (s : Z) (c : cnts) (xs : list A) : res (list A) :=
  let ria := to_u 64 (s * csz) in
  if umax <=? s then Err else if amax <=? ria then Err else
  slow_rep (welts c) xs 0 ria [].
(* slash.c:640-740 array 𝕨 of rank 1; 629: an empty one returns 𝕩 *)
Definition rep_arr (cl : cclass) (c : cnts) (xs : list A) : res (list A) :=
  let wia := c_ia c in
  if wia =? 0 then Ok xs else
  if negb (wia =? Z.of_nat (length xs)) then Err else
  match c with
  | CB w _ => compress junk cl w wia xs
  | CF _ => do s <- usum c; arrW_base s c xs
  | CI _ _ =>
    do s <- usum c;
    if umax <=? s then Err else
    match cl with
    | COther _ => arrW_base s c xs
    | _ =>
      if s =? 0 then Ok [] else
      let c := if s <=? wia then sq c else c in
      match c with
      | CB w _ => compress junk cl w wia xs
      | _ => match cl with CObj _ => arrW_base s c xs | _ => dense_rep (trim (map (fun e => match e with Some z => z | None => 0 end) (welts c))) xs 0 s [] end
      end
    end
  end.
(* slash.c:747-824 constant 𝕨 *)
Definition rep_atom (cl : cclass) (wv : Z) (xs : list A) : res (list A) :=
  let xlen := Z.of_nat (length xs) in
  if wv <? 0 then Err else
  if wv <=? 1 then (if (wv =? 1) || (xlen =? 0) then Ok xs else Ok []) else
  if xlen =? 0 then Ok xs else
  let s := xlen * wv in
  if 2 ^ ub <=? s then Err else
  match cl with
  | CObj _ | COther _ =>
    let cap := to_u ub (xlen * csz * wv) in
    if amax <=? cap then Err else
    for_ (Z.to_nat xlen) 0 (fun i out => do v <- xat xs i; copy_cells (Z.to_nat wv) v cap out) []
  | _ => dense_rep (repeat wv (length xs)) xs 0 s []
  end.
(* slash.c:619-840 slash_c2, 𝕨 a list of numbers or an integer, 𝕩 of rank at least 1. Other 𝕨 go to the runtime *)
Definition slash_c2 (cl : cclass) (w : wspec) (xs : list A) : res (list A) :=
  match w with WArr c => rep_arr cl c xs | WAtom v => rep_atom cl v xs end.
End C2.
