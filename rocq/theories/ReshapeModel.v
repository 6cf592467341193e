(** Model of Reshape (𝕨⥊𝕩): src/builtins/sfns.c 114-140, 148-181, 199-392.
    Memory is bit addressed: byte n of a buffer is bits 8n..8n+7, least significant first (little endian).
    Reads or writes outside a buffer, memcpy of overlapping ranges, shifts by 64 or more and endless loops are UB. *)
From Coq Require Import ZArith List Bool Lia.
Import ListNotations.
From Verif Require Import Base SqueezeModel.
Open Scope Z_scope.

(** a buffer of [msz] cells; what a fresh buffer holds is arbitrary *)
Record gmem (A : Type) := Mem { msz : Z; at_ : Z -> A }.
Arguments Mem {A}. Arguments msz {A}. Arguments at_ {A}.

(** memcpy from another buffer: cells s..s+n-1 of src to cells d..d+n-1 of m *)
Definition gcpy {A} (m : gmem A) (d : Z) (src : gmem A) (s n : Z) : res (gmem A) :=
  if (0 <=? d) && (0 <=? s) && (0 <=? n) && (d + n <=? msz m) && (s + n <=? msz src)
  then Ok (Mem (msz m) (fun k => if (d <=? k) && (k <? d + n) then at_ src (s + (k - d)) else at_ m k))
  else UB.
(** memcpy inside one buffer: the ranges must not overlap *)
Definition gself {A} (m : gmem A) (d s n : Z) : res (gmem A) :=
  if (s + n <=? d) || (d + n <=? s) then gcpy m d m s n else UB.
(** bit_cpyN(rq, d, rq, 0, n), utils/mut.c 217 = bit_cpy, utils/bits.h; what it does on bits is C12_copy_exact, whose conditions
    (ranges do not overlap, and the word after the source is inside the buffer) are checked here *)
Definition bcpy (m : gmem bool) (d n : Z) : res (gmem bool) :=
  if (n <=? d) && (n + 64 <=? msz m) then gcpy m d m 0 n else UB.
(** p[i] = v for a u64 pointer p at the start of the buffer *)
Definition wrword (m : gmem bool) (i v : Z) : res (gmem bool) :=
  if (0 <=? i) && (64 * i + 64 <=? msz m)
  then Ok (Mem (msz m) (fun k => if (64 * i <=? k) && (k <? 64 * i + 64) then Z.testbit v (k - 64 * i) else at_ m k))
  else UB.
(** the number made of n bits starting at p *)
Fixpoint numat (n : nat) (f : Z -> bool) (p : Z) : Z :=
  match n with O => 0 | S n => Z.b2z (f p) + 2 * numat n f (p + 1) end.
Definition rdword (m : gmem bool) (i : Z) : res Z :=
  if (0 <=? i) && (64 * i + 64 <=? msz m) then Ok (numat 64 (at_ m) (64 * i)) else UB.
(** memset(p, b, n): n bytes at the start *)
Definition gset (m : gmem bool) (b n : Z) : res (gmem bool) :=
  if (0 <=? n) && (8 * n <=? msz m)
  then Ok (Mem (msz m) (fun k => if (0 <=? k) && (k <? 8 * n) then Z.testbit b (k mod 8) else at_ m k))
  else UB.

(** fill_words, sfns.c 134-140: for (i<wds) p[i]=v; if (ext) memcpy(p+wds, &v, ext) *)
Fixpoint fw_loop (n : nat) (m : gmem bool) (i v : Z) : res (gmem bool) :=
  match n with O => Ok m | S n => do m' <- wrword m i v; fw_loop n m' (i + 1) v end.
Definition fill_words (m : gmem bool) (v bytes : Z) : res (gmem bool) :=
  let wds := bytes / 8 in
  let ext := bytes mod 8 in
  do m1 <- fw_loop (Z.to_nat wds) m 0 v;
  if negb (ext =? 0) then gcpy m1 (64 * wds) (Mem 64 (Z.testbit v)) 0 (8 * ext) else Ok m1.

(** u64 operations *)
Definition shl64 (v b : Z) : res Z := if (0 <=? b) && (b <? 64) then Ok (to_u 64 (Z.shiftl v b)) else UB.
Definition shr64 (v b : Z) : res Z := if (0 <=? b) && (b <? 64) then Ok (Z.shiftr v b) else UB.
Definition low_mask (b : Z) : res Z := shr64 (Z.ones 64) (64 - b).   (* ~(u64)0 >> (64-b) *)

(** the arrays Reshape distinguishes: bits, elements of 2^k bytes held as bit patterns, boxed values *)
Inductive arr (B : Type) := ABit (l : list bool) | ATyp (k : Z) (l : list Z) | ABox (l : list B).
Arguments ABit {B}. Arguments ATyp {B}. Arguments ABox {B}.
Definition alen {B} (x : arr B) : Z :=
  match x with ABit l => Z.of_nat (length l) | ATyp _ l => Z.of_nat (length l) | ABox l => Z.of_nat (length l) end.

(** the buffers behind arrays *)
Definition of_bits (g : Z -> bool) (l : list bool) : gmem bool :=
  let n := Z.of_nat (length l) in
  Mem (64 * ((n + 63) / 64)) (fun k => if (0 <=? k) && (k <? n) then nth (Z.to_nat k) l false else g k).
Definition of_typ (k : Z) (l : list Z) : gmem bool :=
  let w := 8 * 2 ^ k in
  Mem (w * Z.of_nat (length l)) (fun i => Z.testbit (nth (Z.to_nat (i / w)) l 0) (i mod w)).
Definition of_box {B} (d : B) (l : list B) : gmem B := Mem (Z.of_nat (length l)) (fun k => nth (Z.to_nat k) l d).
(** reading arrays back *)
Definition to_bits (n : Z) (m : gmem bool) : list bool := map (fun i => at_ m (Z.of_nat i)) (seq 0 (Z.to_nat n)).
Definition to_typ (k n : Z) (m : gmem bool) : list Z :=
  let w := 8 * 2 ^ k in map (fun i => numat (Z.to_nat w) (at_ m) (w * Z.of_nat i)) (seq 0 (Z.to_nat n)).
Definition to_box {B} (n : Z) (m : gmem B) : list B := map (fun i => at_ m (Z.of_nat i)) (seq 0 (Z.to_nat n)).

(** sfns.c 315-392 reshape_cycle. sfns.c 336-341: do { v |= v<<b; b*=2; } while (b%8 && b<64) *)
Fixpoint small_loop (fuel : nat) (v b : Z) : res (Z * Z) :=
  match fuel with
  | O => UB
  | S f => do s <- shl64 v b;
           let v := Z.lor v s in
           let b := 2 * b in
           if negb (b mod 8 =? 0) && (b <? 64) then small_loop f v b else Ok (v, b)
  end.
(** sfns.c 346-353: for (; b%8; b*=2) {...}. 64*nw is computed in 32 bits. *)
Fixpoint bit_double (fuel : nat) (m : gmem bool) (nia nw b : Z) : res (gmem bool * Z) :=
  match fuel with
  | O => UB
  | S f =>
    if b mod 8 =? 0 then Ok (m, b)
    else if nw * 32 <? b then
           do m' <- (if b <? nia then bcpy m b (nia - b) else Ok m);
           Ok (m', to_u 32 (64 * nw))
         else do m' <- bcpy m b b; bit_double f m' nia nw (2 * b)
  end.
(** sfns.c 378-383: while (b<64) { v |= v<<b; b*=2; } *)
Fixpoint rep_loop (fuel : nat) (v b : Z) : res Z :=
  match fuel with
  | O => UB
  | S f => if b <? 64 then do s <- shl64 v b; rep_loop f (Z.lor v s) (2 * b) else Ok v
  end.
(** sfns.c 386: for (; bi<=l/2; bi+=bi) memcpy(rp+bi, rp, bi) *)
Fixpoint dbl_loop (fuel : nat) (m : gmem bool) (bi l : Z) : res (gmem bool * Z) :=
  match fuel with
  | O => UB
  | S f => if bi <=? l / 2 then do m' <- gself m (8 * bi) 0 (8 * bi); dbl_loop f m' (bi + bi) l else Ok (m, bi)
  end.
(** sfns.c 387: u64 e=bi; for (; e+bi<=bf; e+=bi) memcpy(rp+e, rp, bi) *)
Fixpoint blk_loop (fuel : nat) (m : gmem bool) (e bi bf : Z) : res (gmem bool * Z) :=
  match fuel with
  | O => UB
  | S f => if e + bi <=? bf then do m' <- gself m (8 * e) 0 (8 * bi); blk_loop f m' (e + bi) bi bf else Ok (m, e)
  end.
(** sfns.c 376-390: the common end; bi bytes present, bf wanted *)
Definition cycle_end (m : gmem bool) (bi bf : Z) : res (gmem bool) :=
  if (bi <=? 8) && (Z.land bi (bi - 1) =? 0) then
    let b := bi * 8 in
    do v0 <- rdword m 0;
    do k <- low_mask b;
    do v <- rep_loop 8 (Z.land v0 k) b;
    fill_words m v bf
  else
    let l := if bf <? 2 ^ 15 then bf else 2 ^ 15 in
    do (m1, bi1) <- dbl_loop 40 m bi l;
    do (m2, e) <- blk_loop (S (Z.to_nat bf)) m1 bi1 bi1 bf;
    if e <? bf then gself m2 (8 * e) 0 (8 * (bf - e)) else Ok m2.

(** sfns.c 328-361: bits. m_bitarrp raises an error past USZ_MAX-65 elements, core/numarr.h 68 *)
Definition cycle_bits (g : Z -> bool) (x : gmem bool) (xia nia : Z) : res (gmem bool) :=
  if 2 ^ 32 - 66 <? nia then Err else
  let nw := (nia + 63) / 64 in
  let m := Mem (64 * nw) g in
  do (m, b) <-
    (if negb (xia mod 8 =? 0) then
       do (m, b) <-
         (if xia <? 64 then
            do v0 <- rdword x 0;
            do k <- low_mask xia;
            do (v, b) <- small_loop 8 (Z.land v0 k) xia;
            do m <- wrword m 0 v;
            do m <- (if (64 <? b) && (64 <? nia) then do s <- shr64 v (64 - b / 2); wrword m 1 s else Ok m);
            Ok (m, b)
          else do m <- gcpy m 0 x 0 (8 * ((xia + 7) / 8)); Ok (m, xia));
       bit_double 8 m nia nw b
     else do m <- gcpy m 0 x 0 xia; Ok (m, xia));
  let bi := b / 8 in
  let bf := 8 * nw in
  do (m, bi) <- (if bi =? 1 then do m <- gset m (numat 8 (at_ m) 0) bf; Ok (m, bf) else Ok (m, bi));
  cycle_end m bi bf.
(** sfns.c 370-374: typed elements of 2^xk bytes. Simplified: allocations are rounded up to whole words *)
Definition cycle_typ (g : Z -> bool) (xk : Z) (x : gmem bool) (xia nia : Z) : res (gmem bool) :=
  if 2 ^ 32 - 1 <=? nia then Err else
  let bi := Z.shiftl xia xk in
  let bf := Z.shiftl nia xk in
  do m <- gcpy (Mem (64 * ((bf + 7) / 8)) g) 0 x 0 (8 * bi);
  cycle_end m bi bf.
(** sfns.c 362-369: boxed elements; COPY_TO(r.data, el_B, i*xia, x, 0, xia). CHECK_IA for 8 byte elements, h.h 172 *)
Fixpoint box_loop {B} (n : nat) (m x : gmem B) (i xia : Z) : res (gmem B) :=
  match n with O => Ok m | S n => do m' <- gcpy m (i * xia) x 0 xia; box_loop n m' x (i + 1) xia end.
Definition cycle_box {B} (g : Z -> B) (x : gmem B) (xia nia : Z) : res (gmem B) :=
  if 2 ^ 31 / 8 - 1000 <? nia then Err else
  let div := nia / xia in
  let md := nia mod xia in
  do m <- box_loop (Z.to_nat div) (Mem nia g) x 0 xia;
  gcpy m (div * xia) x 0 md.

(** sfns.c 148-181 reshape_one: one element repeated. The element is an integer, another number (its 64 bits), a character, or
    anything else. (i32)x.f of a number outside i32 is taken not to equal it. *)
Inductive elem (B : Type) := EInt (n : Z) | EFlt (u : Z) | EChr (c : Z) | EBox (b : B).
Arguments EInt {B}. Arguments EFlt {B}. Arguments EChr {B}. Arguments EBox {B}.
(** result kinds: the bit pattern of an element of the given width, signed or not *)
Inductive rkind := KBit | KI (k : Z) | KC (k : Z) | KF.
Definition one_num (g : Z -> bool) (nia : Z) (e : Z + Z) : res (rkind * gmem bool) :=
  let buf bytes := Mem (64 * ((bytes + 7) / 8)) g in
  match e with
  | inl n =>
    if n =? to_s 8 n then
      let b := to_u 8 n in
      if b <=? 1 then
        (if 2 ^ 32 - 66 <? nia then Err else
         let nb := 8 * ((nia + 63) / 64) in
         do m <- gset (buf nb) (to_u 8 (- n)) nb; Ok (KBit, m))
      else (if 2 ^ 31 - 1000 <? nia then Err else
            do m <- gset (buf nia) b nia; Ok (KI 0, m))
    else if n =? to_s 16 n then
      (if 2 ^ 31 / 2 - 1000 <? nia then Err else
       do m <- fill_words (buf (nia * 2)) (to_u 64 (to_u 16 n * 281479271743489)) (nia * 2); Ok (KI 1, m))   (* 0x0001000100010001 *)
    else
      (if 2 ^ 31 / 4 - 1000 <? nia then Err else
       do m <- fill_words (buf (nia * 4)) (to_u 64 (to_u 32 n * 4294967297)) (nia * 4); Ok (KI 2, m))        (* 0x0000000100000001 *)
  | inr u =>
    if 2 ^ 31 / 8 - 1000 <? nia then Err else
    do m <- fill_words (buf (nia * 8)) u (nia * 8); Ok (KF, m)
  end.
Definition one_chr (g : Z -> bool) (nia c : Z) : res (rkind * gmem bool) :=
  let buf bytes := Mem (64 * ((bytes + 7) / 8)) g in
  if c =? to_u 8 c then
    (if 2 ^ 31 - 1000 <? nia then Err else
     do m <- gset (buf nia) c nia; Ok (KC 0, m))
  else if c =? to_u 16 c then
    (if 2 ^ 31 / 2 - 1000 <? nia then Err else
     do m <- fill_words (buf (nia * 2)) (to_u 64 (c * 281479271743489)) (nia * 2); Ok (KC 1, m))
  else
    (if 2 ^ 31 / 4 - 1000 <? nia then Err else
     do m <- fill_words (buf (nia * 4)) (to_u 64 (c * 4294967297)) (nia * 4); Ok (KC 2, m)).
(** the elements of such a result *)
Definition width (k : rkind) : Z := match k with KBit => 1 | KI k => 8 * 2 ^ k | KC k => 8 * 2 ^ k | KF => 64 end.
Definition raw_at (k : rkind) (m : gmem bool) (i : Z) : Z := numat (Z.to_nat (width k)) (at_ m) (width k * i).
Definition val_at (k : rkind) (m : gmem bool) (i : Z) : Z :=
  match k with KI _ => to_s (width k) (raw_at k m i) | _ => raw_at k m i end.

(** sfns.c 315-392 on arrays. Simplified: squeeze_any (line 323) keeps the elements (C19) and is not repeated; an 𝕩 of one element goes
    to reshape_one above (line 320-321), so the theorems about this function ask for two or more elements. *)
Definition reshape_cycle {B} (g : Z -> bool) (gb : Z -> B) (nia : Z) (x : arr B) : res (arr B) :=
  let xia := alen x in
  if xia =? 0 then Err else
  match x with
  | ABit l => do m <- cycle_bits g (of_bits g l) xia nia; Ok (ABit (to_bits nia m))
  | ATyp k l => do m <- cycle_typ g k (of_typ k l) xia nia; Ok (ATyp k (to_typ k nia m))
  | ABox l => do m <- cycle_box gb (of_box (gb 0) l) xia nia; Ok (ABox (to_box nia m))
  end.

(** The shape: sfns.c 250-313 shape_c2_listw. An axis is a natural number that fits the size type, or one of ∘ ⌊ ⌽ ↑, or another
    primitive, or something else. mulOn multiplies modulo 2^32 and tells if the product did not fit. *)
Inductive axis := Nat_ (v : Z) | Atop | Floor | Reverse | Take | OtherPrim | Other.
Definition is_prim (a : axis) : bool := match a with Nat_ _ | Other => false | _ => true end.
Definition is_computed (a : axis) : bool := match a with Atop | Floor | Reverse | Take => true | _ => false end.
Record lst := { l_nia : Z; l_sh : list Z; l_pos : option nat; l_id : axis; l_bad : bool; l_good : bool }.
Fixpoint shape_loop (ws : list axis) (i : nat) (xia : Z) (s : lst) : res lst :=
  match ws with
  | [] => Ok s
  | Nat_ v :: t =>
    let p := l_nia s * v in
    shape_loop t (S i) xia {| l_nia := to_u 32 p; l_sh := l_sh s ++ [v]; l_pos := l_pos s; l_id := l_id s;
                              l_bad := l_bad s || (2 ^ 32 <=? p); l_good := l_good s || (v =? 0) |}
  | c :: t =>
    if negb (is_prim c) then Err
    else match l_pos s with
         | Some _ => Err                                    (* multiple computed axes *)
         | None =>
           shape_loop t (S i) xia {| l_nia := l_nia s; l_sh := l_sh s ++ [0]; l_pos := Some i; l_id := c; l_bad := l_bad s;
                                     l_good := l_good s || ((xia =? 0) || match c with Floor => true | _ => false end) |}
         end
  end.
(** the shape, the number of elements, and whether to fill (↑) rather than repeat *)
Definition shape_list (ws : list axis) (xia : Z) : res (list Z * Z * bool) :=
  do s <- shape_loop ws 0 xia {| l_nia := 1; l_sh := []; l_pos := None; l_id := Other; l_bad := false; l_good := false |};
  if l_bad s && negb (l_good s) then Err else
  match l_pos s with
  | None => Ok (l_sh s, l_nia s, false)
  | Some p =>
    if negb (is_computed (l_id s)) then Err else
    if l_nia s =? 0 then Err else
    let div := xia / l_nia s in
    let md := xia mod l_nia s in
    do (item, fill) <-
      match l_id s with
      | Atop => if negb (md =? 0) then Err else Ok (div, false)
      | Floor => Ok (div, false)
      | Reverse => Ok (if negb (md =? 0) then div + 1 else div, false)
      | _ => Ok (if negb (md =? 0) then div + 1 else div, true)
      end;
    let n := l_nia s * item in
    if 2 ^ 32 <=? n then Err else Ok (upd (l_sh s) p item, n, fill)       (* uszMul, stuff.h 236 *)
  end.

(** The elements: sfns.c 208-217 reshape_unshaped with take_head (66-112, the first nia elements), 114-127 take_impl, 305-309.
    Here an array is its list of elements; [cyc] is the repetition above. *)
Section Top.
Context {A : Type}.
Variable cyc : Z -> list A -> res (list A).
Definition reshape_unshaped (nia : Z) (xs : list A) : res (list A) :=
  if nia <=? Z.of_nat (length xs) then Ok (firstn (Z.to_nat nia) xs) else cyc nia xs.
Definition take_impl (nia : Z) (fill : option A) (xs : list A) : res (list A) :=
  let xia := Z.of_nat (length xs) in
  if xia <? nia then match fill with None => Err | Some f => Ok (xs ++ repeat f (Z.to_nat (nia - xia))) end
  else Ok (firstn (Z.to_nat nia) xs).
(** 𝕨⥊𝕩 for a list 𝕨 of two or more axes; wia>UR_MAX is an error *)
Definition reshape_list (ws : list axis) (fill : option A) (xs : list A) : res (list Z * list A) :=
  if 255 <? Z.of_nat (length ws) then Err else
  do (sn, f) <- shape_list ws (Z.of_nat (length xs));
  let '(sh, n) := sn in
  do r <- (if f : bool then take_impl n fill xs else reshape_unshaped n xs);
  Ok (sh, r).
End Top.
