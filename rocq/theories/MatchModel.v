(** Model of matching: src/builtins/compare.c:81-251, src/core/stuff.h:359-377, src/utils/calls.h:29-36.
    Portable (#else) versions of the kernels. *)
From Verif Require Import Base BitsModel TagModel TagSpec NumSpec ArrSpec DataSpec SqueezeModel.

(** A stored value. Bit arrays are words of which the bits past the end are arbitrary; the other flat arrays are a list of elements of
    one type (not [EBit], not [EB]); boxed arrays hold values. Slices and reference counts are not represented: a slice is read
    through the same pointer arithmetic as its parent. The element count is the product of the shape. *)
Inductive obj :=
| OAtom (w : Z)
| OBits (sh : list Z) (ws : list Z)
| OTyped (sh : list Z) (t : elt) (raws : list Z)
| OBox (sh : list Z) (els : list obj).

(** What a kernel is given: a pointer to words, or to elements of a known type. Reading it at another type is not in the model: UB. *)
Inductive mem := MW (ws : list Z) | MT (t : elt) (raws : list Z).

(** for (i<l) if (w[i] != x[i]) return false; return true *)
Fixpoint kloop (n i : nat) (gw gx : nat -> res Z) (ne : Z -> Z -> bool) : res bool :=
  match n with
  | O => Ok true
  | S n => do a <- gw i; do b <- gx i; if ne a b then Ok false else kloop n (S i) gw gx ne
  end.
Definition nez (a b : Z) : bool := negb (a =? b).
(** (double)a != b and a != b on doubles *)
Definition ne_zf (a b : Z) : bool := is_nan b || negb (a * one =? fval b).
Definition ne_ff (a b : Z) : bool := negb (feq a b).

(* src/builtins/compare.c:131-137 equal_1_1 *)
Definition k_1_1 (w x : mem) (l : Z) : res bool :=
  match w, x with
  | MW wp, MW xp =>
    let q := l / 64 in
    do e <- kloop (Z.to_nat q) 0 (rd wp) (rd xp) nez;
    if negb e then Ok false else
    let r := (- l) mod 64 in
    if r =? 0 then Ok true else
    do a <- rdz wp q; do b <- rdz xp q; Ok (shl (Z.lxor a b) r =? 0)
  | _, _ => UB
  end.
(* src/builtins/compare.c:138-148 DEF_EQ_U1: [t] is the type T *)
Definition bitz (wp : list Z) (i : nat) : res Z := do b <- bitp_get wp 0 (Z.of_nat i); Ok (if b then 1 else 0).
Definition k_1_T (t : elt) (w x : mem) (l d : Z) : res bool :=
  let '(w, x) := if negb (d =? 0) then (x, w) else (w, x) in
  match w, x with
  | MW wp, MT t' xp => if elt_no t' =? elt_no t then kloop (Z.to_nat l) 0 (bitz wp) (rd xp) (match t with EF64 => ne_zf | _ => nez end) else UB
  | _, _ => UB
  end.
(* src/builtins/compare.c:149-157 equal_f64_f64_reflexive *)
Fixpoint krefl (n i : nat) (gw gx : nat -> res Z) (r : bool) : res bool :=
  match n with
  | O => Ok r
  | S n => do w <- gw i; do x <- gx i; krefl n (S i) gw gx (r && (feq w x || (negb (feq w w) && negb (feq x x))))
  end.
Definition k_f64_f64_reflexive (w x : mem) (l : Z) : res bool :=
  match w, x with MT EF64 wp, MT EF64 xp => krefl (Z.to_nat l) 0 (rd wp) (rd xp) true | _, _ => UB end.
(* src/builtins/compare.c:168 DEF_EQ_I(f64_f64) *)
Definition k_f64_f64 (w x : mem) (l : Z) : res bool :=
  match w, x with MT EF64 wp, MT EF64 xp => kloop (Z.to_nat l) 0 (rd wp) (rd xp) ne_ff | _, _ => UB end.
(** Little-endian bytes of an integer, and of the elements of a flat array *)
Fixpoint bytes (k : nat) (z : Z) : list Z := match k with O => [] | S k => z mod 256 :: bytes k (z / 256) end.
Definition esize (t : elt) : nat := match t with EI8 | EC8 => 1 | EI16 | EC16 => 2 | EI32 | EC32 => 4 | _ => 8 end.
Definition mem_bytes (m : mem) : option (list Z) :=
  match m with MT t l => Some (flat_map (bytes (esize t)) l) | MW _ => None end.
(* src/builtins/compare.c:167 DEF_EQ_I(8_8, u8, u8, l<<=d;) *)
Definition k_8_8 (w x : mem) (l d : Z) : res bool :=
  match mem_bytes w, mem_bytes x with
  | Some wp, Some xp => kloop (Z.to_nat (Z.shiftl l d)) 0 (rd wp) (rd xp) nez
  | _, _ => UB
  end.
(* src/builtins/compare.c:166, 169-173 DEF_EQ: S and T are the types of the two pointers. The usual arithmetic conversions keep all
   values of these types, except that an integer is converted to double when T is f64. *)
Definition k_S_T (s t : elt) (w x : mem) (l d : Z) : res bool :=
  let '(w, x) := if negb (d =? 0) then (x, w) else (w, x) in
  match w, x with
  | MT s' wp, MT t' xp => if (elt_no s' =? elt_no s) && (elt_no t' =? elt_no t) then kloop (Z.to_nat l) 0 (rd wp) (rd xp) (match t with EF64 => ne_zf | _ => nez end) else UB
  | _, _ => UB
  end.

(* src/builtins/compare.c:112-121 matchFnData; 99 stands for the unused entries *)
Definition matchFnData : list Z :=
  [ 0;0;0;0;0;99;99;99;
    1;0;0;0;0;99;99;99;
    1;1;1;0;0;99;99;99;
    1;1;1;2;0;99;99;99;
    1;1;1;1;0;99;99;99;
    99;99;99;99;99;0;0;0;
    99;99;99;99;99;1;1;0;
    99;99;99;99;99;1;1;2 ].
(* src/builtins/compare.c:186-200 MAKE_TABLE: matchFns, and matchFnsR if [refl] *)
Inductive kern := K11 | K1 (t : elt) | K88 | KF | KFR | KST (s t : elt) | KNE.
Definition matchFns (refl : bool) : list kern :=
  [ K11;     K1 EI8;       K1 EI16;       K1 EI32;       K1 EF64;       KNE; KNE; KNE;
    K1 EI8;  K88;          KST EI8 EI16;  KST EI8 EI32;  KST EI8 EF64;  KNE; KNE; KNE;
    K1 EI16; KST EI8 EI16; K88;           KST EI16 EI32; KST EI16 EF64; KNE; KNE; KNE;
    K1 EI32; KST EI8 EI32; KST EI16 EI32; K88;           KST EI32 EF64; KNE; KNE; KNE;
    K1 EF64; KST EI8 EF64; KST EI16 EF64; KST EI32 EF64; if refl then KFR else KF; KNE; KNE; KNE;
    KNE; KNE; KNE; KNE; KNE; K88;          KST EC8 EC16;  KST EC8 EC32;
    KNE; KNE; KNE; KNE; KNE; KST EC8 EC16; K88;           KST EC16 EC32;
    KNE; KNE; KNE; KNE; KNE; KST EC8 EC32; KST EC16 EC32; K88 ].
(* src/utils/calls.h:34-36 MATCH_GET, MATCHR_GET, MATCH_CALL; compare.c:175 notEq *)
Definition match_call (refl : bool) (we xe : elt) (w x : mem) (l : Z) : res bool :=
  let i := Z.to_nat (elt_no we * 8 + elt_no xe) in
  do k <- rd (matchFns refl) i; do d <- rd matchFnData i;
  match k with
  | K11 => k_1_1 w x l
  | K1 t => k_1_T t w x l d
  | K88 => k_8_8 w x l d
  | KF => k_f64_f64 w x l
  | KFR => k_f64_f64_reflexive w x l
  | KST s t => k_S_T s t w x l d
  | KNE => Ok false
  end.

(* src/core/stuff.h:372-377 atomEqual; src/builtins/compare.c:82-86 atomEEqual preceded by the identity test of line 248 if [refl].
   Comparison of functions (atomEqualF) is not modelled: UB. *)
Definition floatIndistinguishable (a b : Z) : bool := feq a b || (negb (feq a a) && negb (feq b b)).
Definition atom_eq (refl : bool) (w x : Z) : res bool :=
  if refl then
    if w =? x then Ok true
    else if isF64 w then Ok (isF64 x && floatIndistinguishable w x)
    else if negb (isVal w) || negb (isVal x) then Ok false else UB
  else
    if isF64 w then Ok (isF64 x && feq w x)
    else if w =? x then Ok true
    else if negb (isVal w) || negb (isVal x) then Ok false else UB.

Definition o_shape (o : obj) : list Z := match o with OAtom _ => [] | OBits s _ | OTyped s _ _ | OBox s _ => s end.
Definition o_elt (o : obj) : elt := match o with OBits _ _ => EBit | OTyped _ t _ => t | _ => EB end.
Definition o_mem (o : obj) : mem := match o with OBits _ ws => MW ws | OTyped _ t l => MT t l | _ => MT EB [] end.
(* GetU: src/core/arr.h / src/core/tyarr.c getters: an element as a value *)
Definition getU (o : obj) (i : nat) : res obj :=
  match o with
  | OBits _ ws => do z <- bitz ws i; do v <- conv1 EBit EB z; Ok (OAtom v)
  | OTyped _ t l => do z <- rd l i; do v <- conv1 t EB z; Ok (OAtom v)
  | OBox _ els => rd els i
  | OAtom _ => UB
  end.
(* src/core/arr.h eqShPart: memcmp of the shapes; rank 1: comparison of the counts (src/builtins/compare.c:227-231) *)
Fixpoint eqShPart (a b : list Z) : bool :=
  match a, b with [], [] => true | x :: a, y :: b => (x =? y) && eqShPart a b | _, _ => false end.
Definition same_shape (w x : obj) : bool :=
  let ws := o_shape w in let xs := o_shape x in
  if negb (length ws =? length xs)%nat then false
  else if (length ws =? 1)%nat then prod ws =? prod xs else eqShPart ws xs.

Definition isAtom (o : obj) : bool := match o with OAtom _ => true | _ => false end.
Definition eq_atom (refl : bool) (w : Z) (x : obj) : res bool :=
  match x with OAtom b => atom_eq refl w b | _ => Ok false end.
(* SLOW with a flat left argument: its elements are atoms *)
Fixpoint slow_flat (refl : bool) (n i : nat) (w x : obj) : res bool :=
  match n with
  | O => Ok true
  | S n =>
    do b <- getU x i; do a <- getU w i;
    do e <- match a with OAtom a => eq_atom refl a b | _ => UB end;
    if negb e then Ok false else slow_flat refl n (S i) w x
  end.
(* src/builtins/compare.c:206-251: equalSlow/eequalSlow, MATCH_IMPL, equal ([refl] = false) and eequal ([refl] = true).
   The identity test of eequal on arrays (line 248) is not represented. *)
Fixpoint equal_ (refl : bool) (w x : obj) {struct w} : res bool :=
  match w with
  | OAtom a => eq_atom refl a x
  | OBits wsh _ | OTyped wsh _ _ =>
    if isAtom x then Ok false else
    if negb (same_shape w x) then Ok false else
    let ia := prod (o_shape x) in
    if ia =? 0 then Ok true else
    match x with
    | OBox _ _ => slow_flat refl (Z.to_nat ia) 0 w x
    | _ => match_call refl (o_elt w) (o_elt x) (o_mem w) (o_mem x) ia
    end
  | OBox wsh wels =>
    if isAtom x then Ok false else
    if negb (same_shape w x) then Ok false else
    let ia := prod (o_shape x) in
    if ia =? 0 then Ok true else
    (fix slow (l : list obj) (n i : nat) : res bool :=
      match n with
      | O => Ok true
      | S n =>
        match l with
        | [] => UB
        | a :: l => do b <- getU x i; do e <- equal_ refl a b; if negb e then Ok false else slow l n (S i)
        end
      end) wels (Z.to_nat ia) 0%nat
  end.
Definition equal := equal_ false.
Definition eequal := equal_ true.
