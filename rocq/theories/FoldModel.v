(** Model of Fold (´) and Scan (`) of lists of numbers with primitive operands: src/builtins/fold.c and scan.c (SINGELI=0). Numbers are whole; arrays as in ArithModel. *)
From Verif Require Import Base BitsModel SqueezeModel WidenModel SelectModel ArithModel SlashModel SlashModel2.
From Coq Require Import List.

(** operands: arithmetic, comparison, ⊣ and ⊢ *)
Inductive prim := PO (o : op) | PLt | PLe | PGt | PGe | PEq | PNe | PL | PR.
Definition b2z (b : bool) : Z := if b then 1 else 0.
(* the operand on two numbers: arithd.c:398-418, cmp.c (cmp_fns of scalars), fns.c ⊣ ⊢ *)
Definition prim_op (p : prim) (a b : Z) : Z :=
  match p with
  | PO o => dbl_op o a b
  | PLt => b2z (a <? b) | PLe => b2z (a <=? b) | PGt => b2z (b <? a) | PGe => b2z (b <=? a) | PEq => b2z (a =? b) | PNe => b2z (negb (a =? b))
  | PL => a | PR => b
  end.

(** * Fold *)
(* fold.c:81-85 *)
Fixpoint xor_words (n : nat) (x : list Z) (i r : Z) : res Z := match n with O => Ok r | S n => do a <- rdz x i; xor_words n x (i + 1) (Z.lxor r a) end.
(* 86-90 *)
Definition fold_ne (x : list Z) (am : Z) : res Z :=
  do r <- xor_words (Z.to_nat (am / 64)) x 0 0;
  do r <- (if am mod 64 =? 0 then Ok r else do a <- rdz x (am / 64); Ok (Z.lxor r (shl a ((64 - am) mod 64))));
  Ok (POPC r mod 2).
(* 92-98 *)
Definition AAAA : Z := 12297829382473034410.
Fixpoint diff_loop (n : nat) (x : list Z) (i r : Z) : res Z := match n with O => Ok r | S n => do a <- rdz x i; diff_loop n x (i + 1) (r + POPC (Z.lxor a AAAA)) end.
Definition bit_diff (x : list Z) (am : Z) : res Z :=
  do r <- diff_loop (Z.to_nat (am / 64)) x 0 0;
  do r <- (if am mod 64 =? 0 then Ok r else do a <- rdz x (am / 64); Ok (r + POPC (shl (Z.lxor a AAAA) ((64 - am) mod 64))));
  Ok (r - am / 2).
(* 69-76 SUM_SMALL: the sum is kept in an i32, or an i64 for i32 elements *)
Fixpoint sum_small (K : Z) (l : list Z) (s : Z) : res Z := match l with [] => Ok s | a :: l => do s <- ck K (s + a); sum_small K l s end.
Definition sumK (k : Z) : Z := if k =? 32 then 64 else 32.
(* loops that go down: while (i--) c = f(xp[i], c) *)
Fixpoint down (n : nat) (f : Z -> Z -> Z) (xp : list Z) (c : Z) : res Z := match n with O => Ok c | S n => do e <- rd xp n; down n f xp (f e c) end.
Section F.
(** conversion of a double to i64, i32; undefined in C out of range, where any result is considered *)
Variables (cv64 cv32 : Z -> Z).
(* 102-119 DEF_INT_SUM: W=k, M=32 (i8, i16) or 52 (i32); [fuel] bounds the iterations of the while; a range of xp is (start, length) *)
Definition sumM (k : Z) : Z := if k =? 32 then 52 else 32.
Fixpoint sum_blocks (fuel : nat) (k : Z) (xp : list Z) (c i0 : Z) : res (Z * Z) :=
  let b := 2 ^ (sumM k - k) in
  let lim := 2 ^ 53 - 2 ^ sumM k in
  if (0 <? i0) && (- lim <=? c) && (c <=? lim) then
    match fuel with
    | O => UB
    | S fuel =>
      let e := i0 in
      let i0 := (i0 - 1) / b * b in
      do s <- sum_small (sumK k) (firstn (Z.to_nat (e - i0)) (skipn (Z.to_nat i0) xp)) 0;
      do c <- ck 64 (c + s);
      sum_blocks fuel k xp c i0
    end
  else Ok (c, i0).
Definition sum_int (k : Z) (xp : list Z) (init : Z) : res Z :=
  let ia := Z.of_nat (length xp) in
  let c := cv64 init in
  do (r, i0) <- (if rnd c =? init then do (c, i0) <- sum_blocks (length xp) k xp c ia; Ok (rnd c, i0) else Ok (init, ia));
  down (Z.to_nat i0) (fun e r => dbl_op OAdd r e) xp r.
(* 121-124 *)
Definition sum_f64 (xp : list Z) (r : Z) : res Z := down (length xp) (fun e r => dbl_op OAdd r e) xp r.
(* 214-235: mulOn is the product of i32 with a check *)
Definition prod_dbl (n : nat) (xp : list Z) (init : Z) : res Z := down n (fun e r => dbl_op OMul r e) xp init.
Fixpoint prod_int (n : nat) (xp : list Z) (init : Z) : res Z :=
  match n with
  | O => Ok init
  | S m => do e <- rd xp m; if fits 32 (init * e) then prod_int m xp (init * e) else prod_dbl n xp init
  end.
(* 239-245 *)
Fixpoint min_loop (mx : bool) (l : list Z) (r : Z) : Z := match l with [] => r | a :: l => min_loop mx l (if (if mx then r <? a else a <? r) then a else r) end.
Definition minmax_fold (mx : bool) (xp : list Z) : res Z := match xp with [] => UB | r :: l => Ok (min_loop mx l r) end.
(* 322-324, 385-387: Some i, what the loop leaves in i, plus 1; None: goto base *)
Fixpoint or_loop (n : nat) (xp : list Z) : res (option Z) := match n with O => Ok (Some 0) | S m => do c <- rd xp m; if c =? 1 then Ok (Some (Z.of_nat n)) else if negb (c =? 0) then Ok None else or_loop m xp end.
(* 327-343 *)
Definition fold_base1 (p : prim) (x : arr) : res Z := do l <- elems x; do c <- (match length l with O => UB | S n => rd l n end); down (length l - 1) (prim_op p) l c.
(* 397-404 *)
Definition fold_base2 (p : prim) (w : Z) (x : arr) : res Z := do l <- elems x; down (length l) (prim_op p) l w.
Definition bres (r : res bool) : res Z := do b <- r; Ok (b2z b).
(* 258-344 fold_c1 for a list of at least one element (the identities are not modelled) *)
Definition fold_c1 (p : prim) (x : arr) : res Z :=
  let ia := a_ia x in
  if ia =? 0 then Err else
  if ia =? 1 then do l <- elems x; rd l 0 else
  if ia =? 2 then do l <- elems x; do a <- rd l 0; do b <- rd l 1; Ok (prim_op p a b) else
  match p with
  | PL => do l <- elems x; rd l 0
  | PR => do l <- elems x; rd l (Z.to_nat (ia - 1))
  | _ =>
    match x with
    | AB xp _ =>
      match p with
      | PO OMul | PO OAnd | PO OMin => do h <- bit_has xp 0 ia false; Ok (1 - b2z h)
      | PO OOr | PO OMax => bres (bit_has xp 0 ia true)
      | PO OAdd => do s <- bit_sum xp 0 ia; Ok (rnd s)
      | PO OSub => do d <- bit_diff xp ia; Ok (rnd d)
      | PNe => fold_ne xp ia
      | PEq => do r <- fold_ne xp ia; Ok (Z.lxor r ((ia + 1) mod 2))
      | PLt => do f <- bit_find xp 0 ia true; Ok (b2z (f =? ia - 1))
      | PLe => do f <- bit_find xp 0 ia false; Ok (b2z (negb (f =? ia - 1)))
      | PGt => do f <- bit_find xp 0 ia false; Ok (f mod 2)
      | PGe => do f <- bit_find xp 0 ia true; Ok ((f + 1) mod 2)
      | PL | PR => UB
      end
    | AI k xp =>
      match p with
      | PO OAdd => if ia <=? 65536 then do s <- sum_small (sumK k) xp 0; Ok (rnd s) else sum_int k xp 0
      | PO OMin => minmax_fold false xp
      | PO OMax => minmax_fold true xp
      | PO OMul | PO OAnd => prod_int (length xp) xp 1
      | PO OOr => do o <- or_loop (length xp) xp; match o with Some i => Ok (b2z (0 <? i)) | None => fold_base1 p x end
      | _ => fold_base1 p x
      end
    | AF xp =>
      match p with
      | PO OAdd => sum_f64 xp 0
      | PO OMin => minmax_fold false xp
      | PO OMax => minmax_fold true xp
      | PO OMul | PO OAnd => prod_dbl (length xp) xp 1
      | _ => fold_base1 p x
      end
    end
  end.
(* 346-405 fold_c2, 𝕨 a number *)
Definition fold_c2 (p : prim) (w : Z) (x : arr) : res Z :=
  let ia := a_ia x in
  if ia =? 0 then Ok w else
  let wi := cv32 w in
  match p with
  | PL => do l <- elems x; rd l 0
  | PR => Ok w
  | _ =>
    match x with
    | AB xp _ =>
      if negb (wi =? w) then fold_base2 p w x else
      match p with
      | PO OAdd => do s <- bit_sum xp 0 ia; Ok (rnd (wi + s))
      | PO OSub => do n <- (if ia mod 2 =? 1 then ck 32 (- wi) else Ok wi); do d <- bit_diff xp ia; Ok (rnd (n + d))
      | _ =>
        if negb (wi =? wi mod 2) then fold_base2 p w x else
        match p with
        | PO OMul | PO OAnd | PO OMin => if wi =? 0 then Ok 0 else do h <- bit_has xp 0 ia false; Ok (b2z (negb h))
        | PO OOr | PO OMax => if wi =? 1 then Ok 1 else bres (bit_has xp 0 ia true)
        | PNe => do r <- fold_ne xp ia; Ok (Z.lxor wi r)
        | PEq => do r <- fold_ne xp ia; Ok (Z.lxor (Z.lxor wi r) (ia mod 2))
        | _ => fold_base2 p w x
        end
      end
    | AI k xp =>
      match p with
      | PO OAdd => sum_int k xp w
      | PO OMin => do m <- minmax_fold false xp; Ok (if m <? w then m else w)
      | PO OMax => do m <- minmax_fold true xp; Ok (if w <? m then m else w)
      | PO OMul | PO OAnd => if wi =? w then prod_int (length xp) xp wi else prod_dbl (length xp) xp w
      | PO OOr =>
        if wi mod 2 =? w then
          if wi =? 0 then do o <- or_loop (length xp) xp; match o with Some i => Ok (b2z (0 <? i)) | None => fold_base2 p w x end
          else Ok (b2z (0 <? ia + 1))
        else fold_base2 p w x
      | _ => fold_base2 p w x
      end
    | AF xp =>
      match p with
      | PO OAdd => sum_f64 xp w
      | PO OMin => do m <- minmax_fold false xp; Ok (if m <? w then m else w)
      | PO OMax => do m <- minmax_fold true xp; Ok (if w <? m then m else w)
      | PO OMul | PO OAnd => prod_dbl (length xp) xp w
      | _ => fold_base2 p w x
      end
    end
  end.
End F.
