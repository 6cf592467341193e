(** Sort and Grade of a list by its element type: the dispatch of src/builtins/grade.h:206-265 and 281-361. *)
From Verif Require Import Base TagModel NumSpec CompareModel BitsModel BitsSpec TimsortModel SortModel.

(** A list as it is stored: bits (words and length), integers of w = 8, 16 or 32 bits, characters (of any width: codes), doubles
    (their words), or boxed values. *)
Inductive flat := FBit (m : list Z) (n : Z) | FInt (w : Z) (xs : list Z) | FChr (xs : list Z) | FF64 (xs : list Z) | FGen (xs : list gobj).
(* the elements, as the generic getters give them *)
Definition vals (x : flat) : list gobj :=
  match x with
  | FBit m n => map (fun b : bool => GAtom (of_int (if b then 1 else 0))) (bits_of m 0 n)
  | FInt _ xs => map (fun v => GAtom (of_int v)) xs
  | FChr xs => map (fun v => GAtom (m_c32 v)) xs
  | FF64 xs => map GAtom xs
  | FGen xs => xs
  end.
Definition flen (x : flat) : Z := match x with FBit _ n => n | FInt _ xs | FChr xs | FF64 xs => Z.of_nat (length xs) | FGen xs => Z.of_nat (length xs) end.

(* grade.h:53-61: the comparison of values given to the merge sort. A comparison that fails throws; the sort is then abandoned. *)
Definition vcmp (up : bool) (a b : gobj) : Z := match compare a b with Ok c => if up then c else - c | _ => 0 end.
(* sort.c:36-46 generic_grade *)
Definition generic_grade (up : bool) (xs : list gobj) : res (list Z) :=
  do r <- tim_sort (fun p q : gobj * Z => vcmp up (fst p) (fst q)) (combine xs (map Z.of_nat (seq 0 (length xs)))); Ok (map snd r).

(* grade.h:207-265 on a list; the flag for lists known to be sorted is not modelled here, cells of arrays of higher rank neither.
   rp, cjunk and junk stand for the contents of fresh memory: words for bits. *)
Definition sort_c1 (up : bool) (x : flat) (rp : list Z) (cjunk : Z) (junk : list Z) : res flat :=
  if flen x <=? 1 then Ok x else
  match x with
  | FBit m n => do r <- sort_bits up m n rp; Ok (FBit r n)
  | FInt w xs => do r <- sort_ints up w xs rp cjunk junk; Ok (FInt w r)
  | FChr _ | FF64 _ | FGen _ => do r <- tim_sort (vcmp up) (vals x); Ok (FGen r)
  end.

(* grade.h:281-361. The result is narrowed to 8 or 16 bits afterwards, which keeps the indices. *)
Definition grade_c1 (up : bool) (x : flat) (rp : list Z) (cjunk : Z) (junk : list (Z * Z)) : res (list Z) :=
  let ia := flen x in
  if ia <=? 2 then
    if ia =? 2 then
      do a <- rd (vals x) 0; do b <- rd (vals x) 1; do c <- compare a b;
      Ok (if (if up then c <=? 0 else 0 <=? c) then [0; 1] else [1; 0])
    else Ok (if ia =? 1 then [0] else [])
  else
  match x with
  | FBit m n => grade_bool up m n rp
  | FInt w xs =>
    if (w =? 8) && (8 <? ia) then radix_grade up 8 U32 xs cjunk junk
    else if (w =? 16) && (16 <? ia) then radix_grade up 16 U32 xs cjunk junk
    else if w =? 32 then grade_32 up xs rp cjunk junk
    else generic_grade up (vals x)
  | FChr xs => grade_32 up xs rp cjunk junk
  | FF64 _ | FGen _ => generic_grade up (vals x)
  end.
