(** Model of comparison and matching of values: src/core/stuff.h:340-376, src/builtins/compare.c. *)
From Verif Require Import Base TagModel TagSpec NumSpec ArrSpec DataSpec SqueezeModel.

(** A value as seen through the generic getters ([GetU]): an atom is its 64-bit word, an array its shape and its elements.
    Reference counts, flags and fills are not represented. Functions and other non-data atoms are words too. *)
Inductive gobj := GAtom (w : Z) | GArr (sh : list Z) (els : list gobj).

Definition b2z (b : bool) : Z := if b then 1 else 0.
(* src/core/stuff.h:344 ICMP *)
Definition ICMP (w x : Z) : Z := b2z (x <? w) - b2z (w <? x).
(* src/core/stuff.h:345-352 floatCompare *)
Definition floatCompare (w x : Z) : Z :=
  if is_nan w || is_nan x then b2z (is_nan w) - b2z (is_nan x)
  else b2z (flt x w) - b2z (negb (fle x w)).

(* src/core/stuff.h:365-369 compare on two atoms, with the atom cases of compareF (src/builtins/compare.c:5-13) *)
Definition cmp_atoms (w x : Z) : res Z :=
  if isF64 w && isF64 x then Ok (floatCompare w x)
  else if isC32 w && isC32 x then Ok (ICMP (o2cG w) (o2cG x))
  else if isF64 w && isC32 x then Ok (-1)
  else if isC32 w && isF64 x then Ok 1
  else Err.

(* src/builtins/compare.c:9-18: label atmW, an atom w against x; atmNeg is set if the arguments were swapped.
   compare(w, x0) with an array x0 comes back here with atmNeg = 0. *)
Fixpoint cmp_atom (w : Z) (x : gobj) : res Z :=
  match x with
  | GAtom v => cmp_atoms w v
  | GArr _ els =>
    match els with
    | [] => Ok 1
    | x0 :: _ => do c <- cmp_atom w x0; Ok (if c <=? 0 then -1 else 1)
    end
  end.
Definition cmp_swapped (x : Z) (w : gobj) : res Z :=
  match w with
  | GAtom v => cmp_atoms v x
  | GArr _ els =>
    match els with
    | [] => Ok (-1)
    | w0 :: _ => do c <- cmp_atom x w0; Ok (if xorb (c <=? 0) true then -1 else 1)
    end
  end.

(* src/builtins/compare.c:26-38: ri counts the matching trailing axes; the lists are the shapes from the last axis on.
   Result: (rm, rc) *)
Fixpoint shape_loop (w x : list Z) (rm rc : Z) : Z * Z :=
  match w, x with
  | wm :: w, xm :: x =>
    if wm =? xm then shape_loop w x (rm * wm) rc
    else (rm * (if wm <? xm then wm else xm), ICMP wm xm)
  | _, _ => (rm, rc)
  end.
Definition shape_cmp (wsh xsh : list Z) : Z * Z :=
  shape_loop (rev wsh) (rev xsh) 1 (ICMP (Z.of_nat (length wsh)) (Z.of_nat (length xsh))).

(* src/core/stuff.h:365-369 compare, src/builtins/compare.c:4-55 compareF. The shortcut of line 20 (same pointer, flat array: 0) is
   not modelled. Array sizes are at most usz: the products of src/builtins/compare.c:31-37 cannot wrap when both arrays are non-empty. *)
Fixpoint compare (w x : gobj) : res Z :=
  match w, x with
  | GAtom a, _ => cmp_atom a x
  | GArr _ _, GAtom b => cmp_swapped b w
  | GArr wsh wels, GArr xsh xels =>
    let '(rm, rc) := shape_cmp wsh xsh in
    let wia := Z.of_nat (length wels) in let xia := Z.of_nat (length xels) in
    if (wia =? 0) || (xia =? 0) then
      let rc2 := ICMP wia xia in Ok (if negb (rc2 =? 0) then rc2 else rc)
    else
      (fix go (l1 l2 : list gobj) (n : Z) : res Z :=
        if n <=? 0 then Ok rc else
        match l1, l2 with
        | a :: l1, b :: l2 => do c <- compare a b; if negb (c =? 0) then Ok c else go l1 l2 (n - 1)
        | _, _ => UB
        end) wels xels rm
  end.
