(** Model of the comparison functions = ≠ < ≤ > ≥ on atoms and arrays (src/builtins/cmp.c), with cells.c leading_axis_arith and each.c eachd_fn.
    Simplified: reference counts and reuse of arguments are left out (C05, C45 for eachd_fn); a word of 64 bits of a bit array is its list of bits. Arrays are followed by padding
    (utils/mem.h:3: 1024 readable bytes around every object), which the loops read; [junk] is that of new arrays. Fills of empty results are left out. The portable code is modelled. *)
From Verif Require Import Base TagModel TagSpec NumSpec ArrSpec SqueezeModel HashModel CompareModel.
From Coq Require Import List.
Open Scope Z_scope.

Inductive op := OEq | ONe | OGt | OGe | OLt | OLe.
Definition flip (o : op) : op := match o with OGt => OLt | OGe => OLe | OLt => OGt | OLe => OGe | _ => o end.
(* the operators of C on integers and on doubles *)
Definition iop (o : op) (a b : Z) : bool := match o with OEq => a =? b | ONe => negb (a =? b) | OGt => b <? a | OGe => b <=? a | OLt => a <? b | OLe => a <=? b end.
Definition fop (o : op) (a b : Z) : bool := match o with OEq => feq a b | ONe => negb (feq a b) | OGt => flt b a | OGe => fle b a | OLt => flt a b | OLe => fle a b end.
(* cmp.c:76-79, 107-112: the word formulas, on one bit *)
Definition bx (o : op) (wv xv : bool) : bool :=
  match o with OEq => xorb (negb wv) xv | ONe => xorb wv xv | OGt => wv && negb xv | OGe => wv || negb xv | OLt => negb wv && xv | OLe => negb wv || xv end.

Section P.
(* atomEqualF of two heap values that are not the same *)
Variable decomp : Z -> Z -> bool.
Variable junk : list Z.

(* core/stuff.h:372-377 atomEqual *)
Definition atomEqual (w x : Z) : bool := if isF64 w then isF64 x && feq w x else if w =? x then true else if negb (isVal w) || negb (isVal x) then false else decomp w x.
(* cmp.c:195-212 of two atoms *)
Definition cmp_atom (o : op) (w x : Z) : res bool :=
  if isF64 w && isF64 x then Ok (fop o w x) else if isC32 w && isC32 x then Ok (iop o w x) else
  match o with
  | OEq => Ok (atomEqual w x)
  | ONe => Ok (negb (atomEqual w x))
  | _ => if isF64 w && isC32 x then Ok (match o with OLe | OLt => true | _ => false end) else if isC32 w && isF64 x then Ok (match o with OGe | OGt => true | _ => false end)
         else do c <- cmp_atoms w x; Ok (iop o c 0)
  end.

(** ** Loops *)
(* cmp.c:59-67 BASE_CMP_LOOP: bytes of 8 results, beyond the end too *)
Definition bits8 (c : Z) : list bool := map (fun k => Z.testbit c (Z.of_nat k)) (seq 0 8).
Definition byte (f : nat -> res bool) (j : nat) : res Z :=
  do bs <- mapM (fun k => f (j * 8 + k)%nat) (seq 0 8); Ok (fold_left (fun c kb => Z.lor c (Z.shiftl (b2z (snd kb)) (Z.of_nat (fst kb)))) (combine (seq 0 8) bs) 0).
Definition cmp_loop (f : nat -> res bool) (l : nat) : res (list bool) := do bs <- mapM (byte f) (seq 0 ((l + 7) / 8)); Ok (firstn l (flat_map bits8 bs)).
(* cmp.c:72, 102: whole words *)
Definition word_loop (f : nat -> res bool) (l : nat) : res (list bool) := do bs <- mapM f (seq 0 (64 * ((l + 63) / 64))); Ok (firstn l bs).
(* cmp.c:69-82: which comparison is compiled for arrays of the type; u32 is compared as i32, and for = and ≠ u8 as i8 and u16 as i16 *)
Definition aa_op (o : op) (e : elt) (a b : Z) : bool :=
  match e with
  | EBit => bx o (a =? 1) (b =? 1)
  | EI8 | EI16 | EI32 => iop o a b
  | EF64 | EB => fop o a b
  | EC8 => match o with OEq | ONe => iop o (to_s 8 a) (to_s 8 b) | _ => iop o a b end
  | EC16 => match o with OEq | ONe => iop o (to_s 16 a) (to_s 16 b) | _ => iop o a b end
  | EC32 => iop o (to_s 32 a) (to_s 32 b)
  end.
Definition isbit (e : elt) : bool := match e with EBit => true | _ => false end.
Definition cmp_kAA (o : op) (e : elt) (wm xm : list Z) (l : nat) : res (list bool) :=
  (if isbit e then word_loop else cmp_loop) (fun i => do a <- rd wm i; do b <- rd xm i; Ok (aa_op o e a b)) l.
(* cmp.c:93-112 the tests q_bit .. q_c32 and the conversions of the atom *)
Definition as_q (e : elt) (x : Z) : option Z :=
  match e with
  | EBit => q_int 0 1 x | EI8 => q_int (-128) 127 x | EI16 => q_int (-32768) 32767 x | EI32 => q_int (-2147483648) 2147483647 x
  | EF64 => if isF64 x then Some x else None
  | EC8 => if q_c8 x then Some (o2cG x) else None
  | EC16 => if q_c16 x then Some (o2cG x) else None
  | EC32 => if isC32 x then Some (o2cG x) else None
  | EB => None
  end.
Definition as_op (o : op) (e : elt) (a xv : Z) : bool := match e with EBit => bx o (a =? 1) (xv =? 1) | EF64 => fop o a xv | _ => iop o a xv end.
(* cmp.c:85-112 base_..AS: elements on the left, the atom on the right *)
Definition cmp_kAS (o : op) (e : elt) (mem : list Z) (x : Z) (l : nat) : res (list bool) :=
  match as_q e x with
  | Some xv => (if isbit e then word_loop else cmp_loop) (fun i => do a <- rd mem i; Ok (as_op o e a xv)) l
  | None => match o with
    | OEq => Ok (repeat false l)
    | ONe => Ok (repeat true l)
    | _ => mapM (fun i => do z <- rd mem i; do v <- conv1 e EB z; cmp_atom o v x) (seq 0 l)
    end
  end.

(** ** Values *)
(** atoms by their word, arrays of one type by their memory, other arrays by their elements *)
Inductive av := At (w : Z) | Ta (sh : list nat) (e : elt) (mem : list Z) | Bx (sh : list nat) (d : list av).
Inductive rv := RBit (b : bool) | RArr (sh : list nat) (l : list rv).
Definition size (sh : list nat) : nat := fold_right Nat.mul 1%nat sh.
Definition shape (a : av) : list nat := match a with At _ => [] | Ta sh _ _ | Bx sh _ => sh end.
Definition elems (a : av) : res (list av) :=
  match a with
  | At _ => Ok [a]
  | Ta sh e mem => mapM (fun i => do z <- rd mem i; do v <- conv1 e EB z; Ok (At v)) (seq 0 (size sh))
  | Bx _ d => Ok d
  end.
(* core/stuff.h:185-188 *)
Definition eqShPart (a b : list nat) (n : nat) : bool := forallb (fun p => (fst p =? snd p)%nat) (combine (firstn n a) (firstn n b)).
(* each.c:8-62 eachd_fn (also arith_recd): all its loops pair the element at i of the argument with more axes with that at i÷ext of the other (C45) *)
Definition each2 (f : av -> av -> res rv) (w x : av) : res rv :=
  do wl <- elems w; do xl <- elems x;
  let wr := length (shape w) in let xr := length (shape x) in
  if (Nat.max wr xr =? 0)%nat then do a <- rd wl 0%nat; do b <- rd xl 0%nat; do r <- f a b; Ok (RArr [] [r]) else
  if negb (eqShPart (shape w) (shape x) (Nat.min wr xr)) then Err else
  let wg := (xr <? wr)%nat in
  let bsh := if wg then shape w else shape x in
  let ria := size bsh in
  if (ria =? 0)%nat then Ok (RArr bsh []) else
  do r <- mapM (fun i => do a <- rd wl (if wg then i else (i / (ria / length wl))%nat); do b <- rd xl (if wg then (i / (ria / length xl))%nat else i); f a b) (seq 0 ria);
  Ok (RArr bsh r).

Section R.
Variable rec : op -> av -> av -> res rv.
(* cmp.c:38-48 CMP_REC *)
Definition cmp_rec (swapped : bool) (o : op) (w x : av) : res rv :=
  match o with
  | OEq | ONe => each2 (rec o) w x
  | OLe | OLt => if swapped then each2 (rec (flip o)) x w else each2 (rec o) w x
  | OGe | OGt => (* le_rec(!S, X, W) *) if negb swapped then each2 (rec o) w x else each2 (rec (flip o)) x w
  end.
Definition elNum (e : elt) : bool := match e with EBit | EI8 | EI16 | EI32 | EF64 => true | _ => false end.
Definition elChr (e : elt) : bool := match e with EC8 | EC16 | EC32 => true | _ => false end.
(* mut.c cpy*Arr, which keep the values (C14) *)
Definition cpyArr (s t : elt) (mem : list Z) (n : nat) : res (list Z) := do l <- mapM (conv1 s t) (firstn n mem); Ok (l ++ junk).
(* cmp.c:13-32 aMakeEq *)
Definition make_eq (we xe : elt) (wm xm : list Z) (wn xn : nat) : res (option (elt * list Z * list Z)) :=
  if elt_no we =? elt_no xe then Ok (Some (we, wm, xm)) else
  if (elNum we && elNum xe) || (elChr we && elChr xe) then
    if elt_no we <? elt_no xe then do m <- cpyArr we xe wm wn; Ok (Some (xe, m, xm)) else do m <- cpyArr xe we xm xn; Ok (Some (we, wm, m))
  else Ok None.
(* arrTypeBitsLog *)
Definition bits_log (e : elt) : Z := match e with EBit => 0 | EI8 | EC8 => 3 | EI16 | EC16 => 4 | EI32 | EC32 => 5 | EF64 | EB => 6 end.
Fixpoint parts (l : list rv) : res (list rv) := match l with [] => Ok [] | RArr _ d :: l => do r <- parts l; Ok (d ++ r) | RBit _ :: _ => UB end.
(* cells.c:203-232 leading_axis_arith; [wb]: 𝕨 is the bigger argument *)
Definition lead_arith (o : op) (wb : bool) (ssh : list nat) (se : elt) (sm : list Z) (bsh : list nat) (be : elt) (bm : list Z) : res rv :=
  let mr := length ssh in
  let cam := size (firstn mr bsh) in
  let csz := size (skipn mr bsh) in
  let call s b := if wb : bool then rec o b s else rec o s b in
  if (Z.of_nat csz <? Z.shiftr 5120 (bits_log be)) then call (Ta bsh se (flat_map (fun v => repeat v csz) (firstn (size ssh) sm) ++ junk)) (Ta bsh be bm)
  else do rs <- mapM (fun i => do z <- rd sm i; do v <- conv1 se EB z; call (At v) (Ta (skipn mr bsh) be (skipn (i * csz) bm))) (seq 0 cam); do l <- parts rs; Ok (RArr bsh l).
(* cmp.c:136-161 ge_AA, gt_AA, eq_AA, ne_AA *)
Definition cmp_AA (swapped : bool) (o : op) (w x : av) : res rv :=
  match w, x with
  | Ta wsh we wm, Ta xsh xe xm =>
    let wr := length wsh in let xr := length xsh in
    if negb (wr =? xr)%nat then
      if (size wsh =? 0)%nat || (size xsh =? 0)%nat then cmp_rec swapped o w x else
      if negb (eqShPart wsh xsh (Nat.min wr xr)) then Err else
      if (wr <? xr)%nat then lead_arith o false wsh we wm xsh xe xm else lead_arith o true xsh xe xm wsh we wm
    else
      if negb (eqShPart wsh xsh wr) then Err else
      do p <- make_eq we xe wm xm (size wsh) (size xsh);
      match p with
      | None => cmp_rec swapped o w x
      | Some (e, wm, xm) => let ria := size xsh in do r <- (if (ria =? 0)%nat then Ok [] else cmp_kAA o e wm xm ria); Ok (RArr xsh (map RBit r))
      end
  | _, _ => cmp_rec swapped o w x
  end.
(* cmp.c:170-184: w an atom, x an array *)
Definition cmp_SA (swapped : bool) (o : op) (w : Z) (x : av) : res rv :=
  match x with
  | Ta xsh xe xm => let ria := size xsh in do r <- (if (ria =? 0)%nat then Ok [] else cmp_kAS (flip o) xe xm w ria); Ok (RArr xsh (map RBit r))
  | _ => cmp_rec swapped o (At w) x
  end.
End R.

(* cmp.c:189-220 eq_c2 .. le_c2; recursion as deep as the arguments *)
Fixpoint cmp_c2 (fuel : nat) (o : op) (w x : av) : res rv :=
  match fuel with
  | O => UB
  | S fuel =>
    let rec := cmp_c2 fuel in
    match w, x with
    | At a, At b => do r <- cmp_atom o a b; Ok (RBit r)
    | At a, _ => cmp_SA rec false o a x
    | _, At b => cmp_SA rec true (flip o) b w
    | _, _ => match o with OLe => cmp_AA rec true OGe x w | OLt => cmp_AA rec true OGt x w | _ => cmp_AA rec false o w x end
    end
  end.
End P.
