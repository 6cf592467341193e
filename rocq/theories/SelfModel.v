(** Model of the monadic search functions on lists: src/builtins/selfsearch.c (portable code, SINGELI=0): Mark Firsts ∊, Occurrence Count ⊒, Classify ⊐, Deduplicate ⍷.
    Reference counts and the allocation of results are left out: a result is the list of its elements. Uninitialised memory holds nothing until written.
    The scratch arrays of the radix-assisted lookup share memory in the program (each is dead before its space is written again); here they are separate lists. *)
From Verif Require Import Base BitsModel TagModel TagSpec NumSpec ArrSpec DataSpec SqueezeModel MatchModel HashModel HtabModel SortModel SearchModel.
From Coq Require Import List.
Notation htab := HtabModel.map.

Definition hflg (o : hobj) : hfl := match o with HBits f _ _ | HTyped f _ _ _ | HBox f _ _ => f | HAtom _ => {| h_sq := false; h_asc := false; h_dsc := false |} end.
(* src/core/arrFns.h:88-95 cellWidthLog for rank 1: the logarithm of the width of an element in bits *)
Definition width_log (t : elt) : Z := match t with EBit => 0 | EI8 | EC8 => 3 | EI16 | EC16 => 4 | EI32 | EC32 => 5 | EF64 | EB => 6 end.
(* selfsearch.c:63-68 fast_sameness: 0: unknown; 1: all same; 2: all different *)
Definition fast_sameness (x : hobj) : res Z :=
  if h_asc (hflg x) && h_dsc (hflg x) then do x0 <- getH x 0; do e <- equal (erase x0) (erase x0); Ok (if e : bool then 1 else 2) else Ok 0.
(* selfsearch.c:70-74 use_sorted *)
Definition use_sorted (x : hobj) : bool :=
  (h_asc (hflg x) || h_dsc (hflg x)) && (if width_log (h_elt x) =? 6 then elt_no (h_elt x) =? elt_no EF64 else (3 <=? width_log (h_elt x)) && (width_log (h_elt x) <=? 5)).
(* selfsearch.c:75-82 shift_ne: every element against the one before it, as integers of its width or as floats; the first bit is then set to r0 *)
Definition shift_ne (x : hobj) (r0 : bool) : res (list bool) :=
  do l <- raws_of x;
  let ne a b := negb (if width_log (h_elt x) =? 6 then feq a b else a =? b) in
  match l with [] => UB | _ :: t => Ok (r0 :: map (fun ab => ne (fst ab) (snd ab)) (combine l t)) end.
(* src/builtins/search.c:546-589 asNormalized with nanBad: None if there is a NaN, else with -0 replaced by 0 from the first -0 on *)
Fixpoint norm_tail (l : list Z) : option (list Z) :=
  match l with [] => Some [] | z :: t => if negb (feq z z) then None else match norm_tail t with Some r => Some (add0 z :: r) | None => None end end.
Fixpoint norm64 (l : list Z) : option (list Z) :=
  match l with
  | [] => Some []
  | z :: t => if (z =? 2 ^ 63) || negb (feq z z) then norm_tail l else match norm64 t with Some r => Some (z :: r) | None => None end
  end.
(* selfsearch.c:85-95 canCompare64_norm, for an array of 64-bit elements *)
Definition compare64 (x : hobj) : option (list Z) := match x with HTyped _ _ EF64 l => norm64 l | _ => None end.
Definition with_raws (x : hobj) (l : list Z) : hobj := HTyped {| h_sq := false; h_asc := false; h_dsc := false |} (h_shape x) EF64 l.
(** memory read as unsigned integers of k bits *)
Definition uraws (k : Z) (x : hobj) : res (list Z) := do l <- raws_of x; Ok (map (fun z => z mod 2 ^ k) l).

(* the all-pairs methods: selfsearch.c:183-192, 326-334 *)
Definition brute_mark (l : list Z) : res (list bool) :=
  if 31 <? Z.of_nat (length l) then UB (* 1<<i as an int *) else
  Ok (map (fun i => forallb (fun xj => negb (nth i l 0 =? xj)) (firstn i l)) (seq 0 (length l))).
Definition brute_count (l : list Z) : list Z :=
  map (fun i => to_s 8 (Z.of_nat (length (filter (fun xj => nth i l 0 =? xj) (firstn i l))))) (seq 0 (length l)).
(* selfsearch.c:420-429; uniq holds the distinct elements so far *)
Definition brute_class (l : list Z) : list Z :=
  snd (fold_left (fun (st : list Z * list Z) xi =>
    let '(uniq, r) := st in let s := scan (fun u => xi =? u) uniq in
    ((if Z.of_nat (length uniq) =? s then uniq ++ [xi] else uniq), r ++ [to_s 8 s])) l ([], [])).

(** ** Table lookup *)
(* r[i] = tab[k]; tab[k] = set tab[k] *)
Definition tab_loop (set : Z -> Z) (tab : list (option Z)) (ks : list nat) : res (list (option Z) * list Z) :=
  foldM (fun (st : list (option Z) * list Z) k => let '(tab, r) := st in do v <- tget tab k; do tab <- wr tab k (Some (set v)); Ok (tab, r ++ [v])) ks (tab, []).
Definition set_keys (v : Z) (tab : list (option Z)) (ks : list nat) : res (list (option Z)) := foldM (fun tab k => wr tab k (Some v)) ks tab.
(* selfsearch.c:193-204, 335-344: the table is initialised only where it is used if there are few elements *)
Definition tab_init (k tn n init : Z) (sparse : Z) (ks : list nat) : res (list (option Z)) :=
  let tab := repeat None (Z.to_nat tn) in
  if (8 <? k) && (n <? tn / sparse) then set_keys init tab ks else set_keys init tab (seq 0 (Z.to_nat tn)).
Definition lookup (k init sparse : Z) (set : Z -> Z) (l : list Z) : res (list Z) :=
  do tab <- tab_init k (2 ^ k) (Z.of_nat (length l)) init sparse (map Z.to_nat l);
  do (_, r) <- tab_loop set tab (map Z.to_nat l); Ok r.

(* selfsearch.c:430-436 DOTAB. t is 32 bits wide; n is 64 bits wide, and t is converted to that to be compared *)
Definition dotab (n : Z) (tab : list (option Z)) (ks : list nat) : res (list Z) :=
  do st <- foldM (fun (st : list (option Z) * Z * list Z) k =>
      let '(tab, u, r) := st in
      do t <- tget tab k;
      do (tab, u) <- (if t mod 2 ^ 64 =? n then do tab <- wr tab k (Some u); Ok (tab, to_s 32 (u + 1)) else Ok (tab, u));
      do v <- tget tab k; Ok (tab, u, r ++ [v])) ks (tab, 0, []);
  Ok (snd st).
(* selfsearch.c:437-447 *)
Definition class_lookup (k : Z) (l : list Z) : res (list Z) :=
  let n := Z.of_nat (length l) in
  do tab <- tab_init k (2 ^ k) n (to_s 32 n) 16 (map Z.to_nat l); dotab n tab (map Z.to_nat l).
(* selfsearch.c:472-487: a table over the range of values; None if the range is too large *)
Definition class_range (l : list Z) : option (res (list Z)) :=
  let n := Z.of_nat (length l) in
  let mn := fold_left Z.min l (2 ^ 31 - 1) in let mx := fold_left Z.max l (- 2 ^ 31) in
  let dst := 1 + (mx - mn) in
  if (dst <? n * 5) || (dst <? 50) then
    Some (do tab <- set_keys (to_s 32 n) (repeat None (Z.to_nat dst)) (seq 0 (Z.to_nat dst)); dotab n tab (map (fun z => Z.to_nat (z - mn)) l))
  else None.

(** ** Radix-assisted lookup: selfsearch.c:104-151. Values are 32-bit unsigned; M is the modulus of usz. The counters c0, c1 are the slots 0.. and 256.. of c. *)
Section Radix.
Variables (M init tim : Z) (set : Z -> Z).
Definition low16 (v : Z) : nat := Z.to_nat (v mod 65536).
Definition tn16 : nat := Z.to_nat 65536.
(* selfsearch.c:106-117 radix_offsets_2_usz *)
Definition offsets (v0 : list Z) : res (list Z * Z) :=
  let n := Z.of_nat (length v0) in
  do c <- inc_all true M (repeat 0 (2 * 256 + 1)) [ubyte 16; ubyte 24] v0;
  do v <- rd v0 0;
  do a <- rd c (256 + 1 + ubyte 24 v);
  if a <? n then
    do o <- rd c 256; do c <- wr c 256 ((o - n) mod M);
    do c <- wr c 256 0; do c <- psum M 256 c 0 0; do c <- psum M 256 c 256 0; Ok (c, 2)
  else
    do b <- rd c (1 + ubyte 16 v);
    if b <? n then do c <- psum M 256 c 0 0; Ok (c, 1) else Ok (c, 0).
(* v[i..l) *)
Definition slice (v : list Z) (i l : nat) : res (list Z) := mapM (rd v) (seq i (l - i)).
(* selfsearch.c:131-136 *)
Fixpoint segs1 (fuel : nat) (c v1 : list Z) (n i : nat) (tab : list (option Z)) (r : list Z) : res (list Z) :=
  if (n <=? i)%nat then Ok r else
  match fuel with
  | O => UB
  | S f =>
    do v <- rd v1 i; do l <- rd c (ubyte 16 v); let l := Z.to_nat l in
    do s <- slice v1 i l;
    do tab <- (if Z.of_nat (l - i) <? tim then set_keys init tab (map low16 s) else set_keys init tab (seq 0 tn16));
    do (tab, r') <- tab_loop set tab (map low16 s);
    segs1 f c v1 n l tab (r ++ r')
  end.
(* selfsearch.c:143: initialise while the upper 16 bits stay the same *)
Fixpoint init_run (fuel : nat) (v2 : list Z) (l : nat) (tv : Z) (tab : list (option Z)) : res (nat * Z * list (option Z)) :=
  match fuel with
  | O => UB
  | S f => do v <- rd v2 l; let t := v / 65536 in if negb (t =? tv) then Ok (l, t, tab) else do tab <- wr tab (low16 v) (Some init); init_run f v2 (S l) t tab
  end.
(* selfsearch.c:142-145 *)
Fixpoint segs2 (fuel : nat) (v2 : list Z) (n l : nat) (tv : Z) (tab : list (option Z)) (r : list Z) : res (list Z) :=
  if (n <=? l)%nat then Ok r else
  match fuel with
  | O => UB
  | S f =>
    do x <- init_run (S (length v2)) v2 l tv tab; let '(l', tv, tab) := x in
    do s <- slice v2 l l';
    do (tab, r') <- tab_loop set tab (map low16 s);
    segs2 f v2 n l' tv tab (r ++ r')
  end.
(* selfsearch.c:147, 149: r[i] = r1[c[k[i]]++] with the counters moved up by one place *)
Definition unmove (c : list Z) (ks : list nat) (r1 : list Z) : res (list Z) :=
  do st <- foldM (fun (st : list Z * list Z) k => let '(c, r) := st in do o <- rd c k; do c <- wr c k ((o + 1) mod M); do v <- rd r1 (Z.to_nat o); Ok (c, r ++ [v])) ks (c, []);
  Ok (snd st).
(* selfsearch.c:119-151 RADIX_LOOKUP_32 *)
Definition radix_lookup (v0 : list Z) : res (list Z) :=
  let n := length v0 in
  let tab := repeat None tn16 in
  let junk := repeat 0 n in
  do (c, bytes) <- offsets v0;
  if bytes =? 0 then
    do tab <- (if Z.of_nat n <? tim then set_keys init tab (map low16 v0) else set_keys init tab (seq 0 tn16));
    do (_, r) <- tab_loop set tab (map low16 v0); Ok r
  else
    do (c, v1) <- dist M c 0 (ubyte 16) v0 junk;
    do (c, r1) <-
      (if bytes =? 1 then do r1 <- segs1 n c v1 n 0 tab []; Ok (c, r1)
       else
         do (c, v2) <- dist M c 256 (ubyte 24) v1 junk;
         do h <- rd v2 0; do z <- rd v2 (n - 1);
         do r2 <- segs2 n (v2 ++ [2 ^ 32 - 1 - z]) n 0 (h / 65536) tab [];
         do c <- wr c 255 0; (* *--c1=0 *)
         do r1 <- unmove (skipn 255 c) (map (ubyte 24) v1) r2;
         Ok (c, r1));
    unmove (0 :: c) (map (ubyte 16) v0) r1. (* *--c0=0 *)
End Radix.

(** integer arithmetic on lists of small integers (×, -, ⌈` and +` on counts below 2^31), seen only through its effect *)
Fixpoint max_scan (m : Z) (l : list Z) : list Z := match l with [] => [] | a :: t => let m := Z.max m a in m :: max_scan m t end.
Fixpoint sum_scan (s : Z) (l : list bool) : list Z := match l with [] => [] | a :: t => let s := s + b2z a in s :: sum_scan s t end.
(** n bits of which only the given ones are set *)
Definition only (n : Z) (is : list Z) : list bool := map (fun k => existsb (Z.eqb (Z.of_nat k)) is) (seq 0 (Z.to_nat n)).
(** slash_c2 with a list of booleans: the elements where it is 1 *)
Fixpoint compress {A} (m : list bool) (l : list A) : list A := match m, l with b :: m, a :: l => if b then a :: compress m l else compress m l | _, _ => [] end.

Section Self.
Variable cast : Z -> Z.
Variable wyhash64 : Z -> Z -> Z.
Variable wyhash : list Z -> Z -> list Z -> Z.
Variables s0 s1 s2 s3 nan0 : Z.
Variable junk : nat -> bool.
Variable M : Z.
Notation HASH := (HASH cast wyhash64 wyhash s0 s1 s2 s3 nan0 junk).

(* selfsearch.c:257-287 *)
Definition mark_gen (xl : list hobj) : res (list bool) :=
  match xl with
  | [] => UB
  | x0 :: _ =>
    do i <- scanM (fun c => do e <- equal (erase c) (erase x0); Ok (negb e)) xl;
    if i =? Z.of_nat (length xl) then Ok (only i [0]) else
    do (m, _) <- ins hobj unit EQH HASH (m_new hobj unit (2 ^ 6)) x0 tt;
    do st <- foldM (fun (st : htab hobj unit * list bool) k => let '(m, r) := st in do (m, had) <- ins hobj unit EQH HASH m k tt; Ok (m, r ++ [negb had])) (skipn (Z.to_nat i) xl) (m, only i [0]);
    Ok (snd st)
  end.
(* selfsearch.c:157-288 memberOf_c1 of a list *)
Definition memberOf_c1 (x : hobj) : res (list bool) :=
  let n := h_ia x in
  if n <=? 1 then Ok (repeat true (Z.to_nat n)) else
  let lw := width_log (h_elt x) in
  if lw =? 0 then
    match x with HBits _ _ ws => do b0 <- bitz ws 0; do i <- bit_find ws 0 n (b0 =? 0); Ok (only n (0 :: (if i <? n then [i] else []))) | _ => UB end
  else
  do sameness <- fast_sameness x;
  if sameness =? 1 then Ok (only n [0]) else
  if sameness =? 2 then Ok (repeat true (Z.to_nat n)) else
  if use_sorted x then shift_ne x true else
  let bits r := Ok (map (fun z => negb (z =? 0)) r) in
  let gen x := do xl <- elems x; mark_gen xl in
  if lw =? 3 then do l <- uraws 8 x; if n <? 8 then brute_mark l else do r <- lookup 8 1 64 (fun _ => 0) l; bits r else
  if lw =? 4 then do l <- uraws 16 x; if n <? 8 then brute_mark l else do r <- lookup 16 1 64 (fun _ => 0) l; bits r else
  if lw =? 5 then do l <- uraws 32 x; if n <? 12 then brute_mark l else do r <- radix_lookup M 1 (65536 / 64) (fun _ => 0) l; bits r else
  match compare64 x with
  | Some l => if n <? 20 then brute_mark l else gen (with_raws x l)
  | None => gen x
  end.

(* selfsearch.c:387-394 *)
Definition count_self_gen (xl : list hobj) : res (list Z) :=
  do st <- foldM (fun (st : htab hobj Z * list Z) k => let '(m, r) := st in do (m, v) <- mk_upd hobj Z EQH HASH m k (fun v => to_s 32 (v + 1)) 0; Ok (m, r ++ [v])) xl (m_new hobj Z (2 ^ 6), []);
  Ok (snd st).
(* selfsearch.c:302-312 COUNT_BOOL; k is the width of the result type. The bits are read word by word. *)
Fixpoint count_bool (k : Z) (i n1 : Z) (l : list Z) : list Z :=
  match l with [] => [] | b :: t => to_s k (if negb (b =? 0) then n1 else i - n1) :: count_bool k (i + 1) (n1 + b) t end.
(* selfsearch.c:290-396 count_c1 of a list *)
Definition count_c1 (x : hobj) : res (list Z) :=
  let n := h_ia x in
  if n <=? 1 then Ok (repeat 0 (Z.to_nat n)) else
  if 2 ^ 31 <? n then Err else
  let lw := width_log (h_elt x) in
  if lw =? 0 then
    match x with HBits _ _ ws => do l <- bitzs ws n; Ok (count_bool (if n <=? 128 then 8 else if n <=? 2 ^ 15 then 16 else 32) 0 0 l) | _ => UB end
  else
  if use_sorted x && (16 <? n) && ((4 <? lw) || (n <? 2 ^ 16)) then
    do c <- shift_ne x true;
    let is := map Z.of_nat (seq 0 (Z.to_nat n)) in
    let m := map (fun ci => b2z (fst ci) * snd ci) (combine c is) in
    Ok (map (fun im => fst im - snd im) (combine is (max_scan (- 2 ^ 31) m)))
  else
  let gen x := do xl <- elems x; count_self_gen xl in
  let inc v := to_s 32 (v + 1) in
  if lw =? 3 then do l <- uraws 8 x; if n <? 12 then Ok (brute_count l) else lookup 8 0 16 inc l else
  if lw =? 4 then do l <- uraws 16 x; if n <? 12 then Ok (brute_count l) else lookup 16 0 16 inc l else
  if lw =? 5 then do l <- uraws 32 x; if n <? 20 then Ok (brute_count l) else do r <- radix_lookup M 0 (65536 / 16) (fun v => (v + 1) mod 2 ^ 32) l; Ok (map (to_s 32) r) else
  match compare64 x with
  | Some l => if n <? 20 then Ok (brute_count l) else gen (with_raws x l)
  | None => gen x
  end.

(* selfsearch.c:505-515 *)
Definition class_gen (xl : list hobj) : res (list Z) :=
  do st <- foldM (fun (st : htab hobj Z * Z * list Z) k =>
      let '(m, ctr, r) := st in
      do (m, o) <- mk_opt hobj Z EQH HASH m k ctr;
      match o with Some v => Ok (m, ctr, r ++ [v]) | None => Ok (m, to_s 32 (ctr + 1), r ++ [ctr]) end) xl (m_new hobj Z (2 ^ 6), 0, []);
  Ok (snd st).
(* selfsearch.c:403-516 indexOf_c1 of a list *)
Definition indexOf_c1 (x : hobj) : res (list Z) :=
  let n := h_ia x in
  if n <=? 1 then Ok (repeat 0 (Z.to_nat n)) else
  if 2 ^ 31 <? n then Err else
  let lw := width_log (h_elt x) in
  if lw =? 0 then
    match x with HBits _ _ ws => do b0 <- bitz ws 0; do l <- bitzs ws n; Ok (if negb (b0 =? 0) then map (fun b => 1 - b) l else l) | _ => UB end
  else
  if use_sorted x && (8 <? n) then do c <- shift_ne x false; Ok (sum_scan 0 c) else
  let gen x := do xl <- elems x; class_gen xl in
  if lw =? 3 then do l <- uraws 8 x; if n <? 12 then Ok (brute_class l) else class_lookup 8 l else
  if lw =? 4 then do l <- uraws 16 x; if n <? 12 then Ok (brute_class l) else class_lookup 16 l else
  if lw =? 5 then
    do l0 <- raws_of x; let l := map (to_s 32) l0 in
    if n <? 12 then Ok (brute_class l) else match class_range l with Some r => r | None => gen x end
  else
  match compare64 x with
  | Some l => if n <? 16 then Ok (brute_class l) else gen (with_raws x l)
  | None => gen x
  end.

(* selfsearch.c:518-545 find_c1 of a list *)
Definition find_c1 (x : hobj) : res (list hobj) :=
  let n := h_ia x in
  do xl <- elems x;
  if n <=? 1 then Ok xl else
  do sameness <- fast_sameness x;
  if sameness =? 1 then Ok (firstn 1 xl) else
  if sameness =? 2 then Ok xl else
  if elt_no (h_elt x) =? 0 then
    match x with
    | HBits _ _ ws =>
      do b0 <- bitz ws 0; do i <- bit_find ws 0 n (b0 =? 0);
      let rp := Z.lxor 2 (- b0) in
      mapM (fun k => do v <- conv1 EBit EB (b2z (Z.testbit rp k)); Ok (HAtom v)) (if i <? n then [0; 1] else [0])
    | _ => UB
    end
  else do m <- memberOf_c1 x; Ok (compress m xl).
End Self.
