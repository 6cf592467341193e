(** Model of Scan (`) of lists of numbers with primitive operands: src/builtins/scan.c (SINGELI=0). *)
From Verif Require Import Base BitsModel SqueezeModel WidenModel SelectModel ArithModel SlashModel SlashModel2 FoldModel.
From Coq Require Import List.

Definition neg64 (x : Z) : Z := to_u 64 (- x).
(* scan.c:88-95 *)
Definition ne_word (c p : Z) : Z :=
  let r := Z.lxor c (shl c 1) in
  let r := Z.lxor r (shl r 2) in let r := Z.lxor r (shl r 4) in let r := Z.lxor r (shl r 8) in
  let r := Z.lxor r (shl r 16) in let r := Z.lxor r (shl r 32) in Z.lxor r p.
Fixpoint ne_loop (n : nat) (xp : list Z) (i p : Z) : res (list Z) :=
  match n with O => Ok [] | S n => do c <- rdz xp i; let r := ne_word c p in do rest <- ne_loop n xp (i + 1) (neg64 (Z.shiftr r 63)); Ok (r :: rest) end.
Definition nwords (ia : Z) : nat := Z.to_nat (BIT_N ia).
(* scan.c:78-99 *)
Definition scan_ne (xp : list Z) (p ia : Z) : res (list Z) := ne_loop (nwords ia) xp 0 p.
(* 100-105 *)
Definition scan_eq (xp : list Z) (ia : Z) : res (list Z) := do r <- scan_ne xp 0 ia; Ok (map (fun w => Z.lxor w AAAA) r).
(* 107-113 *)
Fixpoint or_words (n : nat) (xp : list Z) (i : Z) : res (list Z) :=
  match n with
  | O => Ok []
  | S n => do xi <- rdz xp i; if xi =? 0 then do r <- or_words n xp (i + 1); Ok (0 :: r) else Ok (neg64 (Z.land xi (neg64 xi)) :: repeat (Z.ones 64) n)
  end.
Definition scan_or (xp : list Z) (ia : Z) : res (list Z) := or_words (nwords ia) xp 0.
(* 114-120 *)
Fixpoint and_words (n : nat) (xp : list Z) (i : Z) : res (list Z) :=
  match n with
  | O => Ok []
  | S n => do x <- rdz xp i; let xi := not64 x in if xi =? 0 then do r <- and_words n xp (i + 1); Ok (Z.ones 64 :: r) else Ok (to_u 64 (Z.land xi (neg64 xi) - 1) :: repeat 0 n)
  end.
Definition scan_and (xp : list Z) (ia : Z) : res (list Z) := and_words (nwords ia) xp 0.
(* 205-217; ((x<<1) | m) - x on u64 *)
Definition M5 : Z := 6148914691236517205.
Definition lt_word (x p : Z) : Z :=
  let u := Z.land (neg64 (Z.shiftr p 63)) (not64 (to_u 64 (x + 1))) in
  let c := to_u 64 (Z.lor (shl x 1) M5 - x) in
  Z.land x (Z.lxor (Z.lxor M5 c) u).
Fixpoint lt_loop (n : nat) (xp : list Z) (i p : Z) : res (list Z) :=
  match n with O => Ok [] | S n => do x <- rdz xp i; let r := lt_word x p in do rest <- lt_loop n xp (i + 1) r; Ok (r :: rest) end.
Definition scan_lt (xp : list Z) (p ia : Z) : res (list Z) := lt_loop (nwords ia) xp 0 p.

(* 131-139: the places of the ones, and the values to fill in between, one after the other; [ri] must not go down *)
Fixpoint fill_ones (ones : list Z) (i ri ia : Z) : res (list Z) :=
  match ones with
  | [] => if ri <? ia then Ok (repeat i (Z.to_nat (ia - ri))) else Ok []
  | e :: ones => if e <? ri then UB else do r <- fill_ones ones (i + 1) e ia; Ok (repeat i (Z.to_nat (e - ri)) ++ r)
  end.
(* 145 SUM_BITWISE, with a sum of type T: [tr] *)
Fixpoint sum_bits (tr : Z -> Z) (n : nat) (xp : list Z) (i c : Z) : res (list Z) := match n with O => Ok [] | S n => do b <- bitp_get xp 0 i; let c := tr (c + b2z b) in do r <- sum_bits tr n xp (i + 1) c; Ok (c :: r) end.
Section S.
Variables (junk umax : Z) (sq : arr -> arr) (cv64 cv32 : Z -> Z).
(* 122-160 scan_add_bool *)
Definition scan_add_bool (xp : list Z) (ia : Z) : res arr :=
  do xs <- bit_sum xp 0 ia;
  if xs <=? 1 then if xs =? 0 then Ok (AB xp ia) else do r <- scan_or xp ia; Ok (AB r ia) else
  let re := if xs <=? 127 then 8 else if xs <=? 32767 then 16 else if xs <=? 2147483647 then 32 else 64 in
  do r <- (if xs <? ia / 128 then do ones <- slash_c1 junk umax (fun c => c) (CB xp ia); fill_ones ones 0 0 ia
           else sum_bits (if re =? 64 then rnd else to_s re) (Z.to_nat ia) xp 0 0);
  Ok (if re =? 64 then AF r else AI re r).
(* 162-166 MINMAX_SCAN; None: an infinite initial value *)
Fixpoint mm_scan (mx : bool) (l : list Z) (c : option Z) : list Z :=
  match l with
  | [] => []
  | a :: l => let c := match c with None => a | Some c => if (if mx then c <? a else a <? c) then a else c end in c :: mm_scan mx l (Some c)
  end.
Definition mm_init (mx : bool) (k : Z) : Z := if mx then - 2 ^ (k - 1) else 2 ^ (k - 1) - 1.
(* 167-181 scan_min_num, scan_max_num *)
Definition scan_mm (mx : bool) (x : arr) : res arr :=
  match x with
  | AB xp ia => do r <- (if mx then scan_or xp ia else scan_and xp ia); Ok (AB r ia)
  | AI k l => Ok (AI k (mm_scan mx l (Some (mm_init mx k))))
  | AF l => Ok (AF (mm_scan mx l None))
  end.
(** reshape of a number *)
Definition all_w (ia w : Z) : arr := AF (repeat w (Z.to_nat ia)).
(* 182-203 scan2_min_num, scan2_max_num *)
Definition scan2_mm (mx : bool) (w : Z) (x : arr) : res arr :=
  let ia := a_ia x in
  if cv32 w =? w then
    match x with
    | AB xp n => if (if mx then 0 <? w else w <? 1) then Ok (all_w ia w) else do r <- (if mx then scan_or xp n else scan_and xp n); Ok (AB r n)
    | AI k l =>
      if (k =? 32) || (w =? to_s k w) then Ok (AI k (mm_scan mx l (Some w)))
      else if (if mx then 0 <? w else w <? 0) then Ok (all_w ia w) else Ok (AI k (mm_scan mx l (Some (mm_init mx k))))
    | AF l => Ok (AF (mm_scan mx l (Some w)))
    end
  else do l <- elems x; Ok (AF (mm_scan mx l (Some w))).
(* 218-247 scan_plus; None: overflow *)
Fixpoint plus_int (l : list Z) (c : Z) : option (list Z) := match l with [] => Some [] | a :: l => if fits 32 (c + a) then match plus_int l (c + a) with Some r => Some (c + a :: r) | None => None end else None end.
Fixpoint plus_dbl (l : list Z) (c : Z) : list Z := match l with [] => [] | a :: l => let c := dbl_op OAdd c a in c :: plus_dbl l c end.
Definition scan_plus (r0 : Z) (x : arr) : res arr :=
  match x with
  | AI k l => match (if cv32 r0 =? r0 then plus_int l r0 else None) with Some r => Ok (AI 32 r) | None => Ok (AF (plus_dbl l r0)) end
  | AF l => Ok (AF (plus_dbl l r0))
  | AB _ _ => UB
  end.
(* 341-347: rank 1 *)
Fixpoint base_scan (p : prim) (l : list Z) (c : Z) : list Z := match l with [] => [] | a :: l => let c := prim_op p c a in c :: base_scan p l c end.
Definition scan_base1 (p : prim) (x : arr) : res arr := do l <- elems x; match l with [] => UB | a :: l => Ok (AF (a :: base_scan p l a)) end.
Definition scan_base2 (p : prim) (w : Z) (x : arr) : res arr := do l <- elems x; Ok (AF (base_scan p l w)).
(* *bitarr_ptr(x) ^= 1 *)
Definition flip0 (xp : list Z) : res (list Z) := do a <- rdz xp 0; wrz xp 0 (Z.lxor a 1).
(* bit_negate for an array of ia bits: BIT_N words (arithm.c:13-22) *)
Definition negate (xp : list Z) (ia : Z) : res (list Z) := for_ (nwords ia) 0 (fun i r => do a <- rdz xp i; Ok (r ++ [not64 a])) [].
Definition rb (ia : Z) (r : res (list Z)) : res arr := do r <- r; Ok (AB r ia).
(* 323-332, 411-413: the bits are written one by one *)
Definition ne_ints (l : list Z) (first : bool) (c : bool) : res (list Z) :=
  let ia := Z.of_nat (length l) in
  let mem := repeat (to_u 64 junk) (nwords ia) in
  do m <- (if first then wrz mem 0 (b2z c) else Ok mem);
  do (m, c) <- for_ (length l - (if first then 1 else 0)) (if first then 1 else 0) (fun i (st : list Z * bool) => let '(m, c) := st in do v <- rdz l i; let c := if first then negb (b2z c =? v) else negb (Z.lxor (b2z c) v =? 0) in do m <- bitp_set m 0 i c; Ok (m, c)) (m, c);
  Ok m.
(* 249-354 scan_c1 for a list *)
Definition scan_c1 (p : prim) (x : arr) : res arr :=
  let ia := a_ia x in
  if ia <=? 1 then Ok x else
  match p with
  | PR => Ok x
  | PL => do l <- elems x; do a <- rd l 0; Ok (all_w ia a)
  | _ =>
    match x with
    | AB xp _ =>
      match p with
      | PO OAdd => scan_add_bool xp ia
      | PO OOr | PO OMax => rb ia (scan_or xp ia)
      | PO OAnd | PO OMul | PO OMin => rb ia (scan_and xp ia)
      | PNe => rb ia (scan_ne xp 0 ia)
      | PEq => rb ia (scan_eq xp ia)
      | PLt => rb ia (scan_lt xp 0 ia)
      | PLe => rb ia (do y <- negate xp ia; do r <- scan_lt y 0 ia; negate r ia)
      | PGt => rb ia (do y <- negate xp ia; do y <- flip0 y; scan_and y ia)
      | PGe => rb ia (do y <- negate xp ia; do y <- flip0 y; scan_or y ia)
      | PO OSub => do a <- rdz xp 0; do r <- scan_add_bool xp ia; arith_SA sq OSub (2 * Z.land a 1) r
      | PL | PR => UB
      end
    | _ =>
      match p with
      | PO OAdd => scan_plus 0 x
      | PO OMin => scan_mm false x
      | PO OMax => scan_mm true x
      | PNe => match x with AI k l => do x0 <- rd l 0; if (x0 =? 0) || (x0 =? 1) then rb ia (ne_ints l true (x0 =? 1)) else scan_base1 p x | _ => scan_base1 p x end
      | PO OOr => match sq x with AB xp n => rb n (scan_or xp n) | x => scan_base1 p x end
      | _ => scan_base1 p x
      end
    end
  end.
(* 356-429 scan_c2 for a list and a number *)
Definition scan_c2 (p : prim) (w : Z) (x : arr) : res arr :=
  let ia := a_ia x in
  if ia =? 0 then Ok x else
  let wbit := (w =? 0) || (w =? 1) in
  match p with
  | PR => Ok x
  | PL => Ok (all_w ia w)
  | PO OMin => scan2_mm false w x
  | PO OMax => scan2_mm true w x
  | PO OAdd =>
    match x with
    | AB xp _ =>
      let wv := cv64 w in
      if negb (rnd wv =? w) || (wv <=? - 2 ^ 53) || (2 ^ 53 <=? wv) || (2 ^ 53 <=? wv + ia) then scan_base2 p w x
      else do t <- scan_add_bool xp ia; if wv =? 0 then Ok t else arith_SA sq OAdd w t
    | AI _ _ => scan_plus w x
    | AF _ => scan_base2 p w x
    end
  | PNe =>
    match x with
    | AB xp _ => do a <- rdz xp 0; rb ia (scan_ne xp (neg64 (if wbit then w else Z.land 1 (not64 a))) ia)
    | AI _ l => if wbit then rb ia (ne_ints l false (w =? 1)) else scan_base2 p w x
    | AF _ => scan_base2 p w x
    end
  | PO OOr => match x with AB xp _ => if wbit then if w =? 0 then rb ia (scan_or xp ia) else Ok (all_w ia 1) else scan_base2 p w x | _ => scan_base2 p w x end
  | PO OAnd | PO OMul => match x with AB xp _ => if wbit then if w =? 1 then rb ia (scan_and xp ia) else Ok (all_w ia 0) else scan_base2 p w x | _ => scan_base2 p w x end
  | PLt => match x with AB xp _ => if wbit then rb ia (scan_lt xp (if w =? 1 then Z.ones 64 else 0) ia) else scan_base2 p w x | _ => scan_base2 p w x end
  | _ => scan_base2 p w x
  end.
End S.
