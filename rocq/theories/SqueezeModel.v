(** Model of element-type conversion (cpy*Arr, src/utils/mut.c:304-520) and of representation squeezing (src/builtins/squeeze.c),
    portable (#else) versions of the loops. An array is its element type, the list of stored elements in ravel order and its flags;
    shape, reference count and fill are not modelled. *)
From Verif Require Import Base TagModel TagSpec NumSpec ArrSpec.

(* src/core/arr.h Arr header: type, flags (src/h.h:621-625 fl_squoze, fl_asc, fl_dsc) and elements. *)
Record arr := { a_et : elt; a_els : list Z; a_sq : bool; a_asc : bool; a_dsc : bool }.
Definition mk (t : elt) (l : list Z) : arr := {| a_et := t; a_els := l; a_sq := false; a_asc := false; a_dsc := false |}.
(* src/h.h:627-628 FLV_SET / FL_SET with fl_squoze *)
Definition set_sq (a : arr) : arr := {| a_et := a_et a; a_els := a_els a; a_sq := true; a_asc := a_asc a; a_dsc := a_dsc a |}.

(* src/core/stuff.h:256-258 *)
Definition elChr t := (5 <=? elt_no t) && (elt_no t <=? 7).
Definition elNum t := elt_no t <=? 4.
Definition elInt t := elt_no t <=? 3.

Fixpoint mapM {A B} (f : A -> res B) (l : list A) : res (list B) :=
  match l with [] => Ok [] | h :: t => do y <- f h; do r <- mapM f t; Ok (y :: r) end.

(** C conversion of an integer to a signed or unsigned type of k bits *)
Definition to_s (k z : Z) : Z := (z + 2 ^ (k - 1)) mod 2 ^ k - 2 ^ (k - 1).
Definition to_u (k z : Z) : Z := z mod 2 ^ k.
(** C conversion of a double to an integer type: truncation, undefined outside of the range of the type *)
Definition f_to (lo hi : Z) (w : Z) : res Z :=
  if is_nan w then UB else if (lo <=? ftrunc w) && (ftrunc w <=? hi) then Ok (ftrunc w) else UB.

(* src/h.h:513-517: the number in a double as a truth value; the sign bit is shifted out by o2bG, C's f64->bool is the same test *)
Definition f_bool (w : Z) : Z := if (negb (is_nan w)) && (fval w =? 0) then 0 else 1.

(* src/utils/mut.c:452-520 (MAKE_ICPY, MAKE_CCPY, cpyHArr, cpyBitArr) with COPY_TO_FROM (src/utils/mut.c:398-450):
   one element converted from type s to type t. A conversion between numbers and characters is not in the tables (a null entry): UB.
   A boxed element is read with o2fG, i.e. as a double, or o2cG. *)
Definition conv1 (s t : elt) (z : Z) : res Z :=
  match t with
  | EBit => match s with EBit => Ok z | EI8 | EI16 | EI32 => Ok (if z =? 0 then 0 else 1) | EF64 | EB => Ok (f_bool z) | _ => UB end
  | EI8  => match s with EBit | EI8 | EI16 | EI32 => Ok (to_s 8 z)  | EF64 | EB => f_to (-128) 127 z | _ => UB end
  | EI16 => match s with EBit | EI8 | EI16 | EI32 => Ok (to_s 16 z) | EF64 | EB => f_to (-32768) 32767 z | _ => UB end
  | EI32 => match s with EBit | EI8 | EI16 | EI32 => Ok (to_s 32 z) | EF64 | EB => f_to (-2147483648) 2147483647 z | _ => UB end
  | EF64 => match s with EBit | EI8 | EI16 | EI32 => Ok (of_int z) | EF64 | EB => Ok z | _ => UB end
  | EC8  => match s with EC8 | EC16 | EC32 => Ok (to_u 8 z)  | EB => Ok (to_u 8 (o2cG z)) | _ => UB end
  | EC16 => match s with EC8 | EC16 | EC32 => Ok (to_u 16 z) | EB => Ok (to_u 16 (o2cG z)) | _ => UB end
  | EC32 => match s with EC8 | EC16 | EC32 => Ok (to_u 32 z) | EB => Ok (o2cG z) | _ => UB end
  | EB   => match s with EBit | EI8 | EI16 | EI32 => Ok (of_int z) | EF64 | EB => Ok z | EC8 | EC16 | EC32 => Ok (m_c32 z) end
  end.
(* cpy*Arr: a new array (no flags) with every element converted. *)
Definition cpy (t : elt) (a : arr) : res arr := do l <- mapM (conv1 (a_et a) t) (a_els a); Ok (mk t l).

Section Squeeze.
(** (i32)x for a double x, as the processor does it: only inside the i32 range is the result fixed by C *)
Variable cast : Z -> Z.

(* src/builtins/squeeze.c:66 etc.: ((u32)c & ~1) ^ (u32)(c>>31) *)
Definition key (c : Z) : Z := Z.lxor (Z.land (c mod 2 ^ 32) (2 ^ 32 - 2)) ((c / 2 ^ 31) mod 2 ^ 32).

(* src/builtins/squeeze.c:6-11 squeeze_smallest, 12-15 squeeze_nope *)
Definition squeeze_smallest (a : arr) : res arr := Ok (set_sq a).
Definition squeeze_nope (a : arr) : res arr := Ok a.

(* the goto targets of SQFN_NUM_RET / SQFN_CHR_RET (src/builtins/squeeze.c:19-41): convert, then set the flag *)
Definition r_to (t : elt) (a : arr) : res arr := do r <- cpy t a; Ok (set_sq r).
Definition mostBit (a : arr) : res arr := r_to EBit a.
Definition mostI8 (o : Z) (a : arr) : res arr := if 0 <? o then r_to EI8 a else mostBit a.
Definition mostI16 (o : Z) (a : arr) : res arr := if 127 <? o then r_to EI16 a else mostI8 o a.
Definition mostI32 (o : Z) (a : arr) : res arr := if 32767 <? o then r_to EI32 a else mostI16 o a.

Definition or_keys (f : Z -> Z) (l : list Z) : Z := fold_left (fun o c => Z.lor o (f c)) l 0.

(* src/builtins/squeeze.c:65-67 squeeze_i8, _i16, _i32 *)
Definition squeeze_i8 (a : arr) : res arr := let o := or_keys (to_u 8) (a_els a) in if 1 <? o then Ok (set_sq a) else mostBit a.
Definition squeeze_i16 (a : arr) : res arr := let o := or_keys key (a_els a) in if 127 <? o then Ok (set_sq a) else mostI8 o a.
Definition squeeze_i32 (a : arr) : res arr := let o := or_keys key (a_els a) in if 32767 <? o then Ok (set_sq a) else mostI16 o a.

(** c != cf where c is an i32 and cf a double *)
Definition i32_ne_f (c w : Z) : bool := is_nan w || negb (c * one =? fval w).

(* src/builtins/squeeze.c:68-77 squeeze_f64; None: left the loop to [squeezed] *)
Fixpoint f64_loop (l : list Z) (o : Z) : option Z :=
  match l with
  | [] => Some o
  | cf :: l => let c := cast cf in if i32_ne_f c cf then None else f64_loop l (Z.lor o (key c))
  end.
Definition squeeze_f64 (a : arr) : res arr :=
  match f64_loop (a_els a) 0 with None => Ok (set_sq a) | Some o => mostI32 o a end.

(* src/builtins/squeeze.c:79-83 squeeze_c16 *)
Definition squeeze_c16 (a : arr) : res arr :=
  if existsb (fun c => negb (c =? to_u 8 c)) (a_els a) then Ok (set_sq a) else r_to EC8 a.
(* src/builtins/squeeze.c:84-93 squeeze_c32 *)
Fixpoint c32_loop (l : list Z) (c8 : bool) : option bool :=
  match l with
  | [] => Some c8
  | c :: l => if negb (c =? to_u 16 c) then None else c32_loop l (if negb (c =? to_u 8 c) then false else c8)
  end.
Definition squeeze_c32 (a : arr) : res arr :=
  match c32_loop (a_els a) true with None => Ok (set_sq a) | Some c8 => if c8 then r_to EC8 a else r_to EC16 a end.

(* src/h.h:493 q_i32: x == (f64)(i32)x on the pattern read as a double *)
Definition q_i32 (w : Z) : bool := negb (is_nan w) && (fval w =? cast w * one).

(* src/builtins/squeeze.c:98-108 SQUEEZE_NUM_B_LOOP *)
Inductive numB := NB_or (o : Z) | NB_f64 | NB_not_num.
Fixpoint numB_loop (l : list Z) (o : Z) : numB :=
  match l with
  | [] => NB_or o
  | c :: t => if negb (q_i32 c) then (if forallb isF64 l then NB_f64 else NB_not_num)
              else numB_loop t (Z.lor o (key (cast c)))
  end.
(* src/builtins/squeeze.c:110-133 squeeze_B_numSlow, squeeze_BV_numImpl: the two differ only in how elements are read *)
Definition squeeze_B_num (a : arr) (notChar : bool) : res arr :=
  match numB_loop (a_els a) 0 with
  | NB_or o => mostI32 o a
  | NB_f64 => r_to EF64 a
  | NB_not_num => if notChar then Ok (set_sq a) else Ok a
  end.
(* src/builtins/squeeze.c:137-178 SQFN_CHR_B, squeeze_B_chrSlow, squeeze_BV_chrImpl *)
Fixpoint chrB_loop (l : list Z) (o : Z) : option Z :=
  match l with
  | [] => Some o
  | c :: t => if negb (isC32 c) then None else chrB_loop t (Z.lor o (o2cG c))
  end.
Definition squeeze_B_chr (a : arr) (notNum : bool) : res arr :=
  match chrB_loop (a_els a) 0 with
  | None => if notNum then Ok (set_sq a) else Ok a
  | Some o => if 65535 <? o then r_to EC32 a else if 255 <? o then r_to EC16 a else r_to EC8 a
  end.
(* src/builtins/squeeze.c:195-212 squeeze_BGeneric, squeeze_B; the caller has checked that the array is not empty *)
Definition squeeze_B (a : arr) : res arr :=
  match a_els a with
  | [] => UB
  | x0 :: _ => if isF64 x0 then squeeze_B_num a true else if isC32 x0 then squeeze_B_chr a true else Ok (set_sq a)
  end.

(* src/builtins/squeeze.c:215-217: the three tables *)
Definition numFns (t : elt) : arr -> res arr :=
  match t with
  | EBit => squeeze_smallest | EI8 => squeeze_i8 | EI16 => squeeze_i16 | EI32 => squeeze_i32 | EF64 => squeeze_f64
  | EC8 => squeeze_smallest | EC16 => squeeze_nope | EC32 => squeeze_nope | EB => fun a => squeeze_B_num a false
  end.
Definition chrFns (t : elt) : arr -> res arr :=
  match t with
  | EBit => squeeze_smallest | EI8 => squeeze_nope | EI16 => squeeze_nope | EI32 => squeeze_nope | EF64 => squeeze_nope
  | EC8 => squeeze_smallest | EC16 => squeeze_c16 | EC32 => squeeze_c32 | EB => fun a => squeeze_B_chr a false
  end.
Definition anyFns (t : elt) : arr -> res arr :=
  match t with
  | EBit => squeeze_smallest | EI8 => squeeze_i8 | EI16 => squeeze_i16 | EI32 => squeeze_i32 | EF64 => squeeze_f64
  | EC8 => squeeze_smallest | EC16 => squeeze_c16 | EC32 => squeeze_c32 | EB => squeeze_B
  end.

(* src/core/stuff.h:241-243 selfElType_i32 *)
Definition selfElType_i32 (i : Z) : elt :=
  if i =? to_s 8 i then (if i =? Z.land i 1 then EBit else EI8) else if i =? to_s 16 i then EI16 else EI32.
Definition elt_max (s t : elt) : elt := if elt_no t <? elt_no s then s else t.

(* src/builtins/squeeze.c:219-245 int_squeeze_sorted *)
Definition int_squeeze_sorted (a : arr) : res arr :=
  match a_els a with
  | [] => Ok (set_sq a)
  | x0 :: _ =>
    if elt_no (a_et a) =? 0 then Ok (set_sq a) else
    let x1 := last (a_els a) x0 in
    let re := elt_max (selfElType_i32 x0) (selfElType_i32 x1) in
    if elt_no (a_et a) =? elt_no re then Ok (set_sq a) else
    match re with
    | EI16 | EI8 | EBit =>
      do r <- cpy re a; Ok {| a_et := a_et r; a_els := a_els r; a_sq := true; a_asc := a_asc a; a_dsc := a_dsc a |}
    | _ => UB
    end
  end.

Definition is_empty (a : arr) : bool := match a_els a with [] => true | _ => false end.
(* src/builtins/squeeze.c:249-255 SQ_FAST_EXT: Some = return this *)
Definition sq_fast_ext (a : arr) : option (res arr) :=
  if a_sq a || a_asc a || a_dsc a then
    if a_sq a then Some (Ok a)
    else if elInt (a_et a) then Some (int_squeeze_sorted a) else None
  else None.

(* src/builtins/squeeze.c:262-267 squeeze_any *)
Definition squeeze_any (a : arr) : res arr :=
  match sq_fast_ext a with
  | Some r => r
  | None => if is_empty a then Ok (set_sq a) else anyFns (a_et a) a
  end.
(* src/builtins/squeeze.c:269-278 squeeze_numNew, squeeze_chrNew *)
Definition squeeze_numNew (a : arr) : res arr :=
  if is_empty a then (if elt_no (a_et a) =? 0 then Ok a else Ok (mk EBit [])) else numFns (a_et a) a.
Definition squeeze_chrNew (a : arr) : res arr :=
  if is_empty a then (if elt_no (a_et a) =? 5 then Ok a else Ok (mk EC8 [])) else chrFns (a_et a) a.
(* src/builtins/squeeze.c:280-296 squeeze_numTryImpl / squeeze_numOut, squeeze_chrTryImpl / squeeze_chrOut *)
Definition squeeze_numTry (a : arr) : res arr :=
  if is_empty a then (if elt_no (a_et a) =? 0 then Ok a else Ok (mk EBit []))
  else match sq_fast_ext a with Some r => r | None => numFns (a_et a) a end.
Definition squeeze_chrTry (a : arr) : res arr :=
  if a_sq a then Ok a
  else if is_empty a then (if elt_no (a_et a) =? 5 then Ok a else Ok (mk EC8 [])) else chrFns (a_et a) a.
End Squeeze.
