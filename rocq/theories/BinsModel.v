(** Bins Up and Bins Down of lists: src/builtins/grade.h:363-594, built without Singeli. *)
From Verif Require Import Base TagModel NumSpec CompareModel BitsModel BitsSpec TimsortModel SortModel SortTopModel.

(* GRADE_UD(<,>): the macro LT of grade.h:9-24 *)
Definition LT (up : bool) (a b : Z) : bool := if up then a <? b else b <? a.

(* grade.h:363-400 isSortedUp, isSortedDown: CMP over neighbours, with a test that the left one is on the wrong side *)
Fixpoint all_next {A : Type} (bad : A -> A -> res bool) (l : list A) : res bool :=
  match l with
  | a :: ((b :: _) as t) => do q <- bad a b; if q then Ok false else all_next bad t
  | _ => Ok true
  end.
Definition is_sorted (up : bool) (x : flat) : res bool :=
  if flen x <=? 1 then Ok true else
  match x with
  | FBit m n => bit_isSorted m 0 (negb up) (n - 1)
  | FInt _ xs | FChr xs => all_next (fun a b => Ok (if up then b <? a else a <? b)) xs
  | FF64 xs => all_next (fun a b => let c := floatCompare a b in Ok (if up then 0 <? c else c <? 0)) xs
  | FGen xs => all_next (fun a b => do c <- compare a b; Ok (if up then 0 <? c else c <? 0)) xs
  end.

(* grade.h:406-408 and 567-568: the search without branches; s counts from the position before the first element *)
Fixpoint bl_loop (fuel : nat) (stay : Z -> bool) (w : list Z) (s l : Z) : res Z :=
  let h := l / 2 in
  if 0 <? h then
    match fuel with
    | O => UB
    | S f => do v <- rdz w (s + h - 1); bl_loop f stay w (if stay v then s + h else s) (l - h)
    end
  else Ok s.

(* grade.h:403-415 bit_boundary *)
Definition bit_boundary (up : bool) (x : list Z) (n : Z) : res Z :=
  let c := if up then 0 else Z.ones 64 in
  do s <- bl_loop (length x + 2) (fun v => negb (LT up c v)) x 0 ((n + 63) / 64 + 1);
  let b := 64 * s in
  if n <=? b then Ok n else
  do v <- rdz x s;
  let v := if up then not64 v else v in
  let v := if n <=? b + 63 then Z.land v (Z.shiftr (Z.ones 64) ((- n) mod 64)) else v in
  Ok (b + POPC v).

(* indexed read; a position outside the list is undefined behaviour *)
Definition rdg {A : Type} (m : list A) (i : Z) : res A := if i <? 0 then UB else rd m (Z.to_nat i).
(* grade.h:577-583 *)
Fixpoint gen_loop (fuel : nat) (up : bool) (w : list gobj) (c : gobj) (s e : Z) : res Z :=
  if 1 <? e - s then
    match fuel with
    | O => UB
    | S f =>
      let m := (s + e) / 2 in
      do v <- rdg w (m - 1); do q <- compare c v;
      if LT up q 0 then gen_loop f up w c s m else gen_loop f up w c m e
    end
  else Ok s.
Fixpoint mapM {A B : Type} (f : A -> res B) (l : list A) : res (list B) :=
  match l with [] => Ok [] | a :: t => do b <- f a; do bs <- mapM f t; Ok (b :: bs) end.
Definition bins_gen (up : bool) (w x : list gobj) : res (list Z) :=
  mapM (fun c => gen_loop (length w + 1) up w c 0 (Z.of_nat (length w) + 1)) x.
(* grade.h:561-569; characters (c32) are read as i32 there, which keeps their codes *)
Definition bins_int (up : bool) (w x : list Z) : res (list Z) :=
  mapM (fun c => bl_loop (length w + 1) (fun v => negb (LT up c v)) w 0 (Z.of_nat (length w) + 1)) x.

(* elements of a list of a typed representation, as words *)
Definition typed (x : flat) : option (list Z) :=
  match x with
  | FBit m n => Some (map (fun b : bool => of_int (if b then 1 else 0)) (bits_of m 0 n))
  | FInt _ xs => Some (map of_int xs)
  | FChr xs => Some (map m_c32 xs)
  | FF64 xs => Some xs
  | FGen _ => None
  end.
Definition is_num (x : flat) : bool := match x with FBit _ _ | FInt _ _ | FF64 _ => true | _ => false end.
Definition is_f64 (x : flat) : bool := match x with FF64 _ => true | _ => false end.
(* src/builtins/cmp.c: the scalar cases of the comparisons used by Bins *)
Definition le_atm (a b : Z) : bool :=
  if isC32 a then isC32 b && (o2cG a <=? o2cG b) else if isC32 b then true else fle a b.
Definition lt_atm (a b : Z) : bool :=
  if isC32 a then isC32 b && (o2cG a <? o2cG b) else if isC32 b then true else flt a b.
Definition ge_atm (a b : Z) : bool := le_atm b a.

(* grade.h:443-468: one element on the left *)
Definition bins_one (up : bool) (w x : flat) : res (list Z) :=
  match typed w, typed x with
  | Some ws, Some xs =>
    do c <- rdz ws 0;
    if is_f64 w && is_num x && is_nan c then Ok (if up then map (fun v => b2z (negb (feq v v))) xs else map (fun _ => 1) xs)
    else if up && is_f64 x then Ok (map (fun v => b2z (negb (lt_atm v c))) xs)
    else Ok (map (fun v => b2z (if up then le_atm c v else ge_atm c v)) xs)
  | _, _ =>
    do c <- rdg (vals w) 0;
    mapM (fun v => do q <- compare v c; Ok (b2z (negb (LT up q 0)))) (vals x)
  end.

(* grade.h:507 and 525-531 on numbers that are not bits *)
Definition bins_num (up : bool) (w x : flat) : res (list Z) :=
  match w, x with
  | FInt _ ws, FInt _ xs => bins_int up ws xs
  | _, _ => bins_gen up (vals w) (vals x)
  end.
(* grade.h:485-505 if one argument is bits *)
Definition bins_bit (up : bool) (w x : flat) : res (list Z) :=
  match w with
  | FBit m n =>
    do c1 <- bit_boundary up m n;
    match x with
    | FBit xm xn => Ok (map (fun b : bool => if b then (if up then n else c1) else (if up then c1 else n)) (bits_of xm 0 xn))
    | _ =>
      do i <- bins_num up (FInt 8 (if up then [0; 1] else [1; 0])) x;
      mapM (fun k => rdz [0; c1; n] k) i
    end
  | _ =>
    match x with
    | FBit xm xn =>
      do i <- bins_num up w (FInt 8 [0; 1]);
      do i0 <- rdz i 0; do i1 <- rdz i 1;
      Ok (map (fun b : bool => if b then i1 else i0) (bits_of xm 0 xn))
    | _ => UB
    end
  end.
Definition is_bit (x : flat) : bool := match x with FBit _ _ => true | _ => false end.

(* grade.h:426-591 for two lists. The sorted flag of the left argument is not modelled: the check is always made. *)
Definition bins_c2 (up : bool) (w x : flat) : res (list Z) :=
  let wia := flen w in
  if (wia =? 0) || (flen x =? 0) then Ok (repeat 0 (Z.to_nat (flen x))) else
  if wia =? 1 then bins_one up w x else
  if 2 ^ 31 - 1 - 10 <? wia then Err else
  do s <- is_sorted up w;
  if negb s then Err else
  match typed w, typed x with
  | Some _, Some _ =>
    if is_num w then
      if is_num x then
        if is_bit w || is_bit x then bins_bit up w x else bins_num up w x
      else Ok (repeat (if up then wia else 0) (Z.to_nat (flen x)))
    else
      if is_num x then Ok (repeat (if up then 0 else wia) (Z.to_nat (flen x)))
      else match w, x with FChr ws, FChr xs => bins_int up ws xs | _, _ => UB end
  | _, _ => bins_gen up (vals w) (vals x)
  end.
