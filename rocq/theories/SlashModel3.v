(** Model of Replicate with a list of bits: compress of src/builtins/slash.c. *)
From Verif Require Import Base BitsModel SqueezeModel WidenModel SlashModel SlashModel2.
From Coq Require Import List.

Section Cells.
Context {A : Type}.
(** what is copied: the cells of 𝕩. The bytes of a cell are copied as a unit. Results are written in order: [out] is what has been written of memory for [cap] cells. *)
Definition emit (cap : Z) (l out : list A) : res (list A) := if Z.of_nat (length out) + Z.of_nat (length l) <=? cap then Ok (out ++ l) else UB.
(* xp[i] *)
Definition xat (xs : list A) (i : Z) : res A := if i <? 0 then UB else match nth_error xs (Z.to_nat i) with Some v => Ok v | None => UB end.
(* the cells from i0 to i1 *)
Definition xrange (xs : list A) (i0 i1 : Z) : res (list A) := if (0 <=? i0) && (i0 <=? i1) && (i1 <=? Z.of_nat (length xs)) then Ok (firstn (Z.to_nat (i1 - i0)) (skipn (Z.to_nat i0) xs)) else UB.

(* slash.c:191-192: the two inner loops of COMPRESS_GROUP *)
Fixpoint skip0 (fuel : nat) (wp : list Z) (wv i : Z) : res (Z * Z) :=
  if negb (wv =? 0) then Ok (wv, i) else match fuel with O => UB | S f => do w <- rdz wp (i + 1); skip0 f wp w (i + 1) end.
Fixpoint skip1 (fuel : nat) (wp : list Z) (wn wv i : Z) : res (Z * Z) :=
  if negb (wv =? 2 ^ 64 - 1) then Ok (wv, i) else match fuel with O => UB | S f => if i + 1 <? wn then do w <- rdz wp (i + 1); skip1 f wp wn w (i + 1) else skip1 f wp wn 0 (i + 1) end.
(* slash.c:183-236 compress_grouped, COMPRESS_GROUP at 187-196. Positions count cells instead of bytes or bits; memory moved is the cells of one run at a time *)
Fixpoint group_loop (fuel : nat) (wp : list Z) (xs : list A) (wn e wv i : Z) (out : list A) : res (list A) :=
  if e <=? Z.of_nat (length out) then Ok out else
  match fuel with
  | O => UB
  | S f =>
    do (wv, i) <- skip0 (S (length wp)) wp wv i; do c <- CTZ wv; let i0 := 64 * i + c in let wv := Z.lor wv (wv - 1) in
    do (wv, i) <- skip1 (S (length wp)) wp wn wv i; do d <- CTZ (not64 wv); let i1 := 64 * i + d in let wv := Z.land wv ((wv + 1) mod 2 ^ 64) in
    do l <- xrange xs i0 i1; do out <- emit e l out;
    group_loop f wp xs wn e wv i out
  end.
Definition compress_grouped (wp : list Z) (xs : list A) (wia wsum : Z) : res (list A) :=
  do w0 <- rdz wp 0; group_loop (Z.to_nat (wia + 1)) wp xs ((wia - 1) / 64 + 1) wsum w0 0 [].
(* slash.c:209-213, 516-518: element by element *)
Definition compress_slow (wp : list Z) (xs : list A) (wia wsum : Z) : res (list A) :=
  for_ (Z.to_nat wia) 0 (fun i out => do w <- rdz wp (i / 64); if Z.testbit w (i mod 64) then do v <- xat xs i; emit wsum [v] out else Ok out) [].
(* slash.c:494-495: the dense loop; the value is written whether it is kept or not *)
Definition compress_dense (wp : list Z) (xs : list A) (wia wsum : Z) : res (list A) :=
  for_ (Z.to_nat wia) 0 (fun i out => do v <- xat xs i; do out' <- emit wsum [v] out; do w <- rdz wp (i / 64); Ok (if Z.testbit w (i mod 64) then out' else out)) [].
(* slash.c:463-474 COMPRESS_BLOCK_PREP; the buffer positions are relative to the block at i *)
Fixpoint gather (xs : list A) (i : Z) (ks : list Z) (cap : Z) (out : list A) : res (list A) :=
  match ks with [] => Ok out | k :: ks => do v <- xat xs (i + k); do out <- emit cap [v] out; gather xs i ks cap out end.
Fixpoint compress_block (fuel : nat) (junk : Z) (wp : list Z) (xs : list A) (wia wsum i : Z) (out : list A) : res (list A) :=
  if wia <=? i then Ok out else
  match fuel with
  | O => UB
  | S f =>
    let last := wia - i <? bsp_max in
    let b := if last then wia - i else bsp_max in
    do bs <- (if last then Ok (wsum - Z.of_nat (length out)) else bit_sum wp (i / 64) b);
    do ks <- where_block junk wp (i / 64) b bs bsp_max;
    do out <- gather xs i ks wsum out;
    compress_block f junk wp xs wia wsum (i + b) out
  end.
End Cells.

(* slash.c:319-331 groups_lt *)
Fixpoint groups_in (n : nat) (wp : list Z) (i r prev : Z) : res (Z * Z) :=
  match n with O => Ok (r, prev) | S n => do v <- rdz wp i; groups_in n wp (i + 1) (r + POPC (Z.lxor v (Z.lor (shl v 1) prev))) (Z.shiftr v 63) end.
Fixpoint groups_out (fuel : nat) (wp : list Z) (l i r prev mx : Z) : res bool :=
  if l <=? i then Ok true else
  match fuel with O => UB | S f => let e := if l - i <? 2 ^ 8 then l else i + 2 ^ 8 in do (r, prev) <- groups_in (Z.to_nat (e - i)) wp i r prev; if mx <? r then Ok false else groups_out f wp l e r prev mx end.
Definition groups_lt (wp : list Z) (n mx : Z) : res bool := let l := (n - 1) / 64 + 1 in groups_out (Z.to_nat (l + 1)) wp l 0 0 0 mx.

(** how the cells of 𝕩 are stored: cells of 8 or 16 bits, of 32 or 64 bits, single objects with or without a pointer to them, others with or without *)
Inductive cclass := C8_16 | C32_64 | CObj (ptr : bool) | COther (ptr : bool).

Section Compress.
Variable junk : Z.
(* slash.c:427-430: the last word with a bit *)
Fixpoint last_word (fuel : nat) (wp : list Z) (we ie : Z) : res (option (Z * Z)) :=
  if negb (we =? 0) then Ok (Some (we, ie)) else
  match fuel with O => UB | S f => if ie =? 0 then Ok None else do we <- rdz wp (ie - 1); last_word f wp we (ie - 1) end.
(* number of leading zeros of a 64-bit word that is not 0 *)
Definition CLZ (w : Z) : Z := 63 - Z.log2 w.
(* slash.c:424-435 start of compress: the list ends at the last bit that is set *)
Inductive start := SEmpty | SAll | SRest (wp : list Z) (wia wsum : Z).
Definition compress_start (w : list Z) (wia0 : Z) : res start :=
  do wp <- mask_tail w wia0;
  do we <- (if wia0 mod 64 =? 0 then Ok 0 else rdz wp (wia0 / 64));
  do r <- last_word (S (length wp)) wp we (wia0 / 64);
  match r with
  | None => Ok SEmpty
  | Some (we, ie) =>
    let wia := 64 * (ie + 1) - CLZ we in
    do wsum <- bit_sum wp 0 wia;
    if wsum =? wia0 then Ok SAll else Ok (SRest wp wia wsum)
  end.
(* slash.c:422-531 compress, cells that are not single bits (SINGELI=0). C8_16: 494-495 with WITH_SPARSE 476-486; C32_64: BLOCK_OR_GROUPED 496-502; CObj: 506-521; COther: compress_grouped. The result's shape (524-530) is the number of cells followed by the shape of a cell, not modelled; nor is the case of cells without elements (441) *)
Definition compress {A} (cl : cclass) (w : list Z) (wia0 : Z) (xs : list A) : res (list A) :=
  do st <- compress_start w wia0;
  match st with
  | SEmpty => Ok []
  | SAll => Ok xs
  | SRest wp wia wsum =>
    let block := compress_block (S (length wp)) junk wp xs wia wsum 0 [] in
    let grouped := compress_grouped wp xs wia wsum in
    match cl with
    | C8_16 => if wsum <? wia / 2 then block else do g <- groups_lt wp wia (wia / 128); if g then grouped else compress_dense wp xs wia wsum
    | C32_64 => if wia / 8 <=? wsum then do g <- groups_lt wp wia (wia / 16); if g then grouped else block else block
    | CObj ptr => if ptr then block else compress_slow wp xs wia wsum
    | COther ptr => if ptr then grouped else compress_slow wp xs wia wsum
    end
  end.

(* slash.c:443-462 compress, single bits (SINGELI=0); q = (-j)%64 *)
Fixpoint cbit_word (fuel : nat) (v x o j : Z) (rp : list Z) : res (Z * Z * list Z) :=
  if v =? 0 then Ok (o, j, rp) else
  match fuel with
  | O => UB
  | S f => do c <- CTZ v; let o := Z.lor (Z.shiftr o 1) (shl (Z.shiftr x c) 63) in let j := j + 1 in
    do rp <- (if j mod 64 =? 0 then wrz rp (j / 64 - 1) o else Ok rp);
    cbit_word f (Z.land v (v - 1)) x o j rp
  end.
Definition compress_bits (w : list Z) (wia0 : Z) (xp : list Z) : res (list Z * Z) :=
  do st <- compress_start w wia0;
  match st with
  | SEmpty => Ok ([], 0)
  | SAll => Ok (xp, wia0)
  | SRest wp wia wsum =>
    do (oj, rp) <- for_ (Z.to_nat (BIT_N wia)) 0 (fun i st => let '(o, j, rp) := st in do v <- rdz wp i; do x <- rdz xp i; cbit_word 64 v x o j rp) (0, 0, mem junk (BIT_N wsum));
    let '(o, j) := oj in
    do rp <- (if (- j) mod 64 =? 0 then Ok rp else wrz rp (j / 64) (Z.shiftr o ((- j) mod 64)));
    Ok (rp, wsum)
  end.
End Compress.
