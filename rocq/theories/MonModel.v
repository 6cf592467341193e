(** Model of the functions + - | ⌊ ⌈ × ¬ of one argument on atoms and arrays: src/builtins/arithm.c, with REG_SA of arithd.c for - and ¬ of arrays, and each.c eachm_fn.
    Simplified: reference counts and reuse of the argument are left out (C05, C45 for eachm_fn), and so are fills and the flags of arrays (C14: squeezing gives the same values with any true flags).
    A word of 64 bits of a bit array is its list of bits. The portable code is modelled. *)
From Verif Require Import Base TagModel TagSpec NumSpec ArrSpec SqueezeModel PervModel.
From Verif Require ArithModel.
From Coq Require Import List.
Open Scope Z_scope.

Inductive mop := MConj | MNeg | MAbs | MFloor | MCeil | MSign | MNot.

(** ** Arithmetic on doubles (IEEE 754) *)
(** the pattern of a value scaled by 2^1074 that a double can hold; [neg] is the sign of a zero *)
Definition fenc (neg : bool) (v : Z) : Z :=
  if v =? 0 then (if neg then 2 ^ 63 else 0) else
  let a := Z.abs v in let s := if v <? 0 then 2 ^ 63 else 0 in
  if a <? 2 ^ 52 then s + a else let k := Z.log2 a in s + (k - 51) * 2 ^ 52 + (a / 2 ^ (k - 52) - 2 ^ 52).
Definition fneg (w : Z) : Z := if w <? 2 ^ 63 then w + 2 ^ 63 else w - 2 ^ 63.
Definition fabs (w : Z) : Z := w mod 2 ^ 63.
Definition ffloor (w : Z) : Z := if is_nan w then w else fenc (sign w =? 1) (fval w / one * one).
Definition fceil (w : Z) : Z := if is_nan w then w else fenc (sign w =? 1) (- (- fval w / one * one)).
(** c - w for a small whole number c, rounded to nearest, ties to even *)
Definition fsub (c w : Z) : Z := if is_nan w then w else fenc false (ArithModel.rnd (c * one - fval w)).
(** v==0?0:v>0?1:-1 *)
Definition fsgn (w : Z) : Z := if feq w 0 then 0 else if flt 0 w then 1 else -1.

(* arithm.c:24-25 and the FEXPR of 88-93, as GC1i does for an atom (36) *)
Definition atom_fn (o : mop) (w : Z) : Z :=
  match o with MConj => w | MNeg => fneg w | MAbs => fabs w | MFloor => ffloor w | MCeil => fceil w | MSign => of_int (fsgn w) | MNot => fsub 1 w end.
Definition mon_atom (o : mop) (w : Z) : res av := if isF64 w then Ok (At (atom_fn o w)) else Err.

Definition width (e : elt) : Z := match e with EI8 => 8 | EI16 => 16 | _ => 32 end.
(* each.c:67-120 eachm_fn of an array of one type (also arithm.c:7-11 arith_recm, and arithd.c arith_recd with an atom 𝕨): every element as an atom *)
Definition each_typed (f : Z -> res av) (sh : list nat) (e : elt) (l : list Z) : res av := do r <- mapM (fun z => do v <- conv1 e EB z; f v) l; Ok (Bx sh r).
(* arithd.c:128-130 DOI8, DOI16, DOI32: the difference in twice the width; None: it does not fit *)
Fixpoint do_int (k c : Z) (l : list Z) : option (list Z) :=
  match l with
  | [] => Some []
  | z :: l => let rv := to_s (2 * k) (c - z) in if to_s k rv =? rv then match do_int k c l with Some r => Some (rv :: r) | None => None end else None
  end.
(* arithd.c:248-253, 342-347 sub_SA for an integer atom 𝕨; bit arrays do not get here *)
Definition sub_SA (c : Z) (sh : list nat) (e : elt) (l : list Z) : res av :=
  match e with
  | EI8 | EI16 | EI32 => match do_int (width e) c l with Some r => Ok (Ta sh e r) | None => each_typed (fun v => if isF64 v then Ok (At (fsub c v)) else Err) sh e l end
  | EF64 => Ok (Ta sh EF64 (map (fsub c) l))
  | _ => UB
  end.
(* arithm.c:13-22 bit_negate *)
Definition bit_negate (l : list Z) : list Z := map (fun b => 1 - b) l.
(* arithm.c:58 SIGN_EXPR *)
Definition sign_expr (e : elt) (c : Z) : Z := match e with EF64 => if flt 0 c then 1 else if feq c 0 then 0 else -1 | _ => if 0 <? c then 1 else if c =? 0 then 0 else -1 end.
(* arithm.c:73 STILE_EXPR; None: bad *)
Fixpoint stile (e : elt) (l : list Z) : option (list Z) :=
  match l with
  | [] => Some []
  | c :: l =>
    let r := match e with EF64 => Some (if fle 0 c then c else fneg c) | _ => if c =? - 2 ^ (width e - 1) then None else Some (if 0 <=? c then c else to_s (width e) (- c)) end in
    match r with Some y => match stile e l with Some r => Some (y :: r) | None => None end | None => None end
  end.

Section M.
Variable cast : Z -> Z.
Definition of_arr (sh : list nat) (a : arr) : av := Ta sh (a_et a) (a_els a).
(* arithm.c:34-44 GC1i for an array of numbers, with the bodies of 58-93; 27 for + *)
Definition mon_typed (o : mop) (sh : list nat) (e : elt) (l : list Z) : res av :=
  let x := Ta sh e l in
  match o with
  | MConj => Ok x
  | MNeg => match e with EBit => Ok (Ta sh EI8 (map (fun b => if b =? 1 then -1 else 0) l)) | _ => sub_SA 0 sh e l end
  | MAbs => match e with EBit => Ok x | _ => match stile e l with Some r => Ok (Ta sh e r) | None => each_typed (mon_atom MAbs) sh e l end end
  | MFloor => match e with EF64 => do r <- squeeze_numNew cast (mk EF64 (map ffloor l)); Ok (of_arr sh r) | _ => Ok x end
  | MCeil => match e with EF64 => do r <- squeeze_numNew cast (mk EF64 (map fceil l)); Ok (of_arr sh r) | _ => Ok x end
  | MSign => match e with EBit => Ok x | _ => Ok (Ta sh EI8 (map (sign_expr e) l)) end
  | MNot =>
    match e with
    | EBit => Ok (Ta sh EBit (bit_negate l))
    | _ => do r <- squeeze_numTry cast (mk e l); match a_et r with EBit => Ok (Ta sh EBit (bit_negate (a_els r))) | _ => sub_SA 1 sh (a_et r) (a_els r) end
    end
  end.
(* arithm.c:24-30 add_c1, 34-44 GC1i *)
Fixpoint mon (o : mop) (a : av) : res av :=
  match a with
  | At w => mon_atom o w
  | Ta sh e mem => do l <- mapM (rd mem) (seq 0 (size sh)); if PervModel.elNum e then mon_typed o sh e l else do r <- each_typed (mon_atom o) sh e l; Ok (match o with MConj => a | _ => r end)
  | Bx sh d => do r <- (fix go l := match l with [] => Ok [] | a :: l => do y <- mon o a; do r <- go l; Ok (y :: r) end) d; Ok (match o with MConj => a | _ => Bx sh r end)
  end.
End M.
