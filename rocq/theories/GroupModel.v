(** Model of Group (⊔) with a list of integers: src/builtins/group.c (SINGELI=0).
    The argument 𝕩 is the list of its cells; a cell is a list of units: bits, bytes or elements, whichever the method copies, so memory is the concatenation of the cells. A group is its number of cells and its memory.
    Calls of Indices, Replicate, Select and Take are replaced by what they return (C22, C24). *)
From Verif Require Import Base BitsModel SqueezeModel.
From Coq Require Import List.

Section G.
Variables (A : Type) (junk : A).
Record gstat := { g_bad : bool; g_neg : Z; g_sort : bool; g_change : Z; g_max : Z }.
(* group.c:76-87 ACCUM *)
Fixpoint accum (w : list Z) (prev : Z) (s : gstat) : gstat :=
  match w with
  | [] => s
  | n :: w => accum w n {| g_bad := g_bad s || (n <? -1); g_neg := g_neg s + (if n =? -1 then 1 else 0); g_sort := g_sort s && (prev <=? n); g_change := g_change s + (if negb (prev =? n) then 1 else 0); g_max := if g_max s <? n then n else g_max s |}
  end.
Definition stat0 := {| g_bad := false; g_neg := 0; g_sort := true; g_change := 0; g_max := -1 |}.
(* the copying macros: MEM_CPY, bit_cpyN (proved to be this in C03), in units *)
Definition blit (d : list A) (p : Z) (x : list A) (k l : Z) : res (list A) :=
  if (0 <=? p) && (0 <=? l) && (p + l <=? Z.of_nat (length d)) && (0 <=? k) && (k + l <=? Z.of_nat (length x))
  then Ok (firstn (Z.to_nat p) d ++ firstn (Z.to_nat l) (skipn (Z.to_nat k) x) ++ skipn (Z.to_nat (p + l)) d) else UB.
Definition group := (Z * list A)%type.
(* 50-59 allocGroups, allocBitGroups: new memory, or the shared empty array *)
Definition alloc (width : Z) (lens : list Z) : list group := map (fun l => if l =? 0 then (0, []) else (l, repeat junk (Z.to_nat (l * width)))) lens.
(* write l units of x at k to group n, at p *)
Definition put (rp : list group) (n p : Z) (x : list A) (k l : Z) : res (list group) :=
  if n <? 0 then UB else do g <- rd rp (Z.to_nat n); do d <- blit (snd g) p x k l; wr rp (Z.to_nat n) (fst g, d).
(* len[w]++ : len is pos+ria+1, so index ¯1 is allowed *)
Definition bump (t : list Z) (ria w v : Z) : res (list Z) := if ria + 1 + w <? 0 then UB else do a <- rd t (Z.to_nat (ria + 1 + w)); wr t (Z.to_nat (ria + 1 + w)) (a + v).
Fixpoint bumps (t : list Z) (ria : Z) (l : list (Z * Z)) : res (list Z) := match l with [] => Ok t | (w, v) :: l => do t <- bump t ria w v; bumps t ria l end.
Definition lens (t : list Z) (ria : Z) : list Z := skipn (Z.to_nat (ria + 1)) t.
(* 182-188 GROUP_CHUNKED; pos in units *)
Fixpoint chunks (l : list (Z * Z)) (x : list A) (width k : Z) (pos : list Z) (rp : list group) : res (list group) :=
  match l with
  | [] => Ok rp
  | (n, c) :: l =>
    let m := c * width in
    if n <? 0 then chunks l x width (k + m) pos rp else
    do p <- rd pos (Z.to_nat n); do rp <- put rp n p x k m; do pos <- wr pos (Z.to_nat n) (p + m); chunks l x width (k + m) pos rp
  end.
(* 238-246, 249-253, 269-282; pos in cells *)
Fixpoint cells_loop (w : list Z) (x : list A) (uc i : Z) (pos : list Z) (rp : list group) : res (list group) :=
  match w with
  | [] => Ok rp
  | n :: w =>
    if n <? 0 then cells_loop w x uc (i + 1) pos rp else
    do p <- rd pos (Z.to_nat n); do rp <- put rp n (p * uc) x (i * uc) uc; do pos <- wr pos (Z.to_nat n) (p + 1); cells_loop w x uc (i + 1) pos rp
  end.
(* 219-227 GROUP_SORT *)
Fixpoint sorted_loop (lens : list Z) (x : list A) (width i : Z) : res (list group) :=
  match lens with
  | [] => Ok []
  | l :: lens => if l =? 0 then do r <- sorted_loop lens x width i; Ok ((0, []) :: r)
    else do d <- blit (repeat junk (Z.to_nat (l * width))) 0 x i (l * width); do r <- sorted_loop lens x width (i + l * width); Ok ((l, d) :: r)
  end.
(* 160-172: places where 𝕨 changes, the first one if 𝕨 does not start with ¯1; the elements there and the lengths to the next *)
Fixpoint changes (prev : Z) (w : list Z) (i : Z) : list (Z * Z) := match w with [] => [] | n :: w => if prev =? n then changes n w (i + 1) else (n, i) :: changes n w (i + 1) end.
Fixpoint run_lens (l : list (Z * Z)) (xn : Z) : list (Z * Z) := match l with [] => [] | (n, i) :: l => (n, match l with (_, j) :: _ => j | [] => xn end - i) :: run_lens l xn end.
Definition keep {B} (m : list bool) (l : list B) : list B := map snd (filter fst (combine m l)).
Variables (notB : bool) (xl0 csz : Z) (hi : bool). (* type of 𝕩: log of the width in bits; elements of a cell; rank above 1 *)
(* 143-156 *)
Definition cs : Z := if csz =? 0 then 1 else csz.
Definition ctz_cs : Z := match CTZ cs with Ok n => n | _ => 0 end.
Definition xl1 : Z := xl0 + (if hi then ctz_cs else 0).
Definition bits : bool := (xl0 =? 0) && negb (hi && (3 <=? xl1)).
Definition width : Z := let w := (if xl0 =? 0 then 1 else 2 ^ (xl0 - 3)) * (if hi then csz else 1) in if (xl0 =? 0) && hi && (3 <=? xl1) then w / 8 else w.
Definition xl : Z := if hi && (negb (Z.land cs (cs - 1) =? 0) || (7 <? xl1)) then 7 else xl1.
(** units of a cell *)
Definition units : Z := if notB then width else csz.
(* 62-291 group_simple *)
Definition group_simple (wbit : bool) (w : list Z) (x : list (list A)) : res (list group) :=
  let xn := Z.of_nat (length x) in
  let wia := Z.of_nat (length w) in
  let s := if wbit then stat0 else accum (firstn (length x) w) (-1) stat0 in
  do last <- (if xn <? wia then rd w (length x) else Ok 0);
  let ria := if wbit then if xn =? 0 then if wia =? 0 then 0 else hd 0 w else 1 + (if existsb (fun n => n =? 1) (firstn (length x) w) then 1 else 0)
             else let r0 := if xn <? wia then last else 0 in if r0 <? g_max s + 1 then g_max s + 1 else r0 in
  if negb wbit && (g_bad s || (xn <? wia) && (last <? -1)) then Err else
  if ria =? 0 then Ok [] else
  if (ria <=? 1) && (g_neg s =? 0) then Ok [(xn, concat x)] else
  if wbit then let m := map (fun n => n =? 1) (firstn (length x) w) in let c1 := keep m x in let c0 := keep (map negb m) x in Ok [(Z.of_nat (length c0), concat c0); (Z.of_nat (length c1), concat c1)] else
  if g_neg s =? xn then Ok (repeat (0, []) (Z.to_nat ria)) else
  let t := repeat 0 (Z.to_nat (2 * ria + 1)) in
  if (64 <? xn) && notB && (g_change s <? xn * width / 32) then
    let ch := changes (-1) (firstn (length x) w) 0 in
    match ch with
    | [] => UB
    | (_, i0) :: _ =>
      (* ind becomes an array of i32: places from 2^31 on do not fit; lengths are computed in i32 (168-171) *)
      if existsb (fun p => 2147483648 <=? snd p) ch then UB else
      let rl := map (fun p => (fst p, to_s 32 (snd p))) (run_lens ch xn) in
      do t <- bumps t ria rl;
      chunks rl (concat x) width (i0 * width) (firstn (Z.to_nat ria) t) (alloc width (lens t ria))
    end
  else
  let f := (32 <? xn) && ((if bits then 0 else xn / 16) <? g_neg s) in
  let m := map (fun n => negb (n =? -1)) (firstn (length x) w) in
  let w := if f then keep m (firstn (length x) w) else w in
  let x := if f then keep m x else x in
  let neg := if f then 0 else g_neg s in
  do t <- bumps t ria (map (fun n => (n, 1)) (firstn (length x) w));
  let ln := lens t ria in
  if notB && (csz =? 0) then Ok (map (fun l => (l, [])) ln)
  else if notB && g_sort s then sorted_loop ln (concat x) width (neg * width)
  else cells_loop (firstn (length x) w) (concat x) units 0 (firstn (Z.to_nat ria) t) (alloc units ln).
(* 294-308 group_c2 for a list of integers: wia-(u64)xn > 1 *)
Definition group_c2 (wbit : bool) (w : list Z) (x : list (list A)) : res (list group) :=
  let d := Z.of_nat (length w) - Z.of_nat (length x) in
  if (d <? 0) || (1 <? d) then Err else group_simple wbit w x.
End G.
