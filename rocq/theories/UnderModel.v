(** Model of Under (⌾) with the selecting functions that have their own code: ⊏, /, ↑, ↓, ⥊ and ⊑ (src/builtins/select.c, slash.c, sfns.c).
    Simplified: reference counts and reuse of 𝕩 (C05, C27) are left out. The storage of the arrays is given by its element type only where the code depends on it; conversions between
    types keep the values as the type of the result holds both (C14, C47). Select (C24), Replicate (C22) and Reshape (C34) are taken as what those properties say.
    Cases handed to the definition of ⌾ in BQN are [None]. Fills are left out. The portable code is modelled. *)
From Verif Require Import Base SqueezeModel ReuseModel TransSpec FnsModel.
From Coq Require Import List.
Open Scope nat_scope.

Section U.
Context {A : Type}.
(* core/stuff.h:378-383 compatible, compatibleFloats: the same value *)
Variable compat : A -> A -> bool.

(** what 𝔽 gives *)
Inductive ret := RAtm | RArr (sh : list nat) (l : list A).
(** 𝔽: a function, an array (whose call gives itself), or the constant function c¨ *)
Inductive oper := OFun (f : list nat -> list A -> res ret) | OArr (sh : list nat) (l : list A) | OEach (c : A).
Definition eqsh (a b : list nat) : bool := if list_eq_dec Nat.eq_dec a b then true else false.
(* calls.h c1 *)
Definition call (o : oper) (sh : list nat) (l : list A) : res ret :=
  match o with OFun f => f sh l | OArr s r => Ok (RArr s r) | OEach c => Ok (RArr sh (repeat c (length l))) end.

(** ** Select *)
(* mut_copyG, COPY_TO, DIRECTARR_REPLACE_RANGE: [n] elements of [s] from [so] on, to [d] from position [p] on *)
Definition copy_range (d : list A) (p : nat) (s : list A) (so n : nat) : res (list A) := for_i (fun j d => do v <- rd s (so + j); wr d (p + j) v) 0 n d.
(* the comparisons of the macro EQ, and MATCH_CALL: [n] elements of [a] from [p] on with those of [b] from [q] on *)
Fixpoint same_range (a : list A) (p : nat) (b : list A) (q n : nat) : res bool :=
  match n with O => Ok true | S n => do u <- rd a p; do v <- rd b q; if compat u v then same_range a (p + 1) b (q + 1) n else Ok false end.
(* elWidth, in bytes *)
Definition elWidth (e : el) : Z := match e with EBit => 0 | EI8 | EC8 => 1 | EI16 | EC16 => 2 | EI32 | EC32 => 4 | EF64 | EB => 8 end%Z.
(* select.c:684 READ_W *)
Definition read_w (cam : nat) (w : list Z) (i : nat) : res nat := do v <- rd w i; Ok (Z.to_nat (if v <? 0 then v + Z.of_nat cam else v)%Z).
(* select.c:668-675: which cells have been replaced; [junk] is the memory allocated for it *)
Definition set_init (junk : list bool) (cam : nat) (w : list Z) : res (list bool) :=
  if length w <? cam / 64 then for_i (fun i s => do cw <- read_w cam w i; wr s cw false) 0 (length w) junk
  else for_i (fun i s => wr s i false) 0 cam junk.
(* select.c:694-800: where the cell of the result and that of the new values are compared. In [do_tycell] the width of a cell in bytes is a [u8]; pointers are to elements of that type here *)
Definition cell_eq (wf64 : bool) (re : el) (csz : nat) (r rep : list A) (cw i : nat) : res bool :=
  if csz =? 1 then same_range r cw rep i 1 else
  if wf64 || (match re with EBit | EB => true | _ => false end) then same_range r (cw * csz) rep (i * csz) csz
  else let cwidth := to_u 8 (Z.of_nat csz * elWidth re) in
       let step := Z.to_nat (cwidth / elWidth re) in same_range r (cw * step) rep (i * step) csz.
(* select.c:664-818 select_replace; [wf64]: 𝕨 is stored as doubles; [re]: element type of the result *)
Fixpoint replace_loop (wf64 : bool) (re : el) (cam csz : nat) (w : list Z) (rep : list A) (n i : nat) (set : list bool) (r : list A) : res (list A) :=
  match n with
  | O => Ok r
  | S n => do cw <- read_w cam w i; do s <- rd set cw; do e <- (if s then cell_eq wf64 re csz r rep cw i else Ok true);
           if e then do set <- wr set cw true; do r <- copy_range r (cw * csz) rep (i * csz) csz; replace_loop wf64 re cam csz w rep n (i + 1) set r else Err
  end.
Definition select_replace (junk : list bool) (wf64 : bool) (re : el) (cam csz : nat) (w : list Z) (x rep : list A) : res (list A) :=
  do set <- set_init junk cam w; replace_loop wf64 re cam csz w rep (length w) 0 set x.

(* the whole numbers of 𝕨; [None]: some number is not whole *)
Fixpoint wholes (w : list val) : option (list Z) := match w with [] => Some [] | VNum z :: w => match wholes w with Some l => Some (z :: l) | None => None end | _ :: _ => None end.
Definition isnum (v : val) : bool := match v with VNum _ | VDbl _ => true | _ => false end.
Definition in_range (n : nat) (z : Z) : bool := ((- Z.of_nat n <=? z) && (z <? Z.of_nat n))%Z.
(* 𝕨⊏𝕩 with numbers 𝕨 (C24, cells with elements) *)
Definition selected (n csz : nat) (w : list val) (x : list A) : res (list Z * list A) :=
  match wholes w with
  | Some l => if forallb (in_range n) l then Ok (l, flat_map (fun z => firstn csz (skipn (Z.to_nat (if z <? 0 then z + Z.of_nat n else z)%Z * csz) x)) l) else Err
  | None => Err
  end.
(* select.c:1219-1247 select_each_impl *)
Fixpoint each_impl (n : nat) (c : A) (w : list Z) (r : list A) : res (list A) :=
  match w with [] => Ok r | z :: w => if in_range n z then do r <- wr r (Z.to_nat (if z <? 0 then z + Z.of_nat n else z)%Z) c; each_impl n c w r else Err end.
(* select.c:1250-1327 select_ucw for an array 𝕩; 𝕨 an atom has an empty shape and one element *)
Definition select_ucw (junk : list bool) (wf64 : bool) (re : el) (o : oper) (wsh : list nat) (w : list val) (xsh : list nat) (x : list A) : res (option (list nat * list A)) :=
  if negb (forallb isnum w) then Ok None else
  match xsh with
  | [] => Err                                                                  (* Select of a unit array throws *)
  | n :: cs =>
    let csz := size cs in
    let check rep :=
      match rep with
      | RArr s l => if eqsh s (wsh ++ cs) then Ok l else Err                   (* select.c:1319: ranks, then both parts of the shape *)
      | RAtm => Err
      end in
    let put z l := if csz =? 0 then Ok (Some (xsh, x)) else do r <- select_replace junk wf64 re n csz z x l; Ok (Some (xsh, r)) in
    match o with
    | OArr s l => match wholes w with
      | Some z => if forallb (in_range n) z then do l <- check (RArr s l); put z l else Err
      | None => Err end
    | OEach c => match cs with
      | [] => match wholes w with Some z => do r <- each_impl n c z x; Ok (Some (xsh, r)) | None => Err end
      | _ => do (z, a) <- selected n csz w x; do p <- call o (wsh ++ cs) a; do l <- check p; put z l
      end
    | OFun _ => do (z, a) <- selected n csz w x; do p <- call o (wsh ++ cs) a; do l <- check p; put z l
    end
  end.

(** ** Replicate *)
(* slash.c:1134-1204 [bit_w] for all element types *)
Fixpoint blend (n i ni : nat) (d : list bool) (rep x : list A) : res (list A) :=
  match n with O => Ok [] | S n => do v <- rd d i; do e <- (if v then rd rep ni else rd x i); do r <- blend n (i + 1) (if v then ni + 1 else ni) d rep x; Ok (e :: r) end.
(* slash.c:1214-1222: the first of every group of new values, if they are all the same *)
Fixpoint firsts (w : list nat) (rep : list A) (ni : nat) : res (list A) :=
  match w with
  | [] => Ok []
  | O :: w => firsts w rep ni
  | S c :: w => do cr <- rd rep ni;
      do ok <- for_i (fun j ok => do v <- rd rep (ni + (j + 1)); Ok (ok && compat v cr)) 0 c true;
      if ok then do r <- firsts w rep (ni + S c); Ok (cr :: r) else Err
  end.
(* slash.c:1058-1233 slash_ucw; rank 1 and equal lengths, other arguments go to BQN code *)
Definition slash_ucw (o : oper) (w : list val) (x : list A) : res (option (list A)) :=
  if negb (forallb isnum w) then Ok None else
  match wholes w with
  | None => Err
  | Some z =>
    if negb (forallb (fun c => 0 <=? c)%Z z) then Err else
    let n := map Z.to_nat z in
    let arg := flat_map (fun '(c, v) => repeat v c) (combine n x) in
    do p <- call o [length arg] arg;
    match p with
    | RArr [l] rep => if negb (l =? length arg) then Err else
        if forallb (fun c => c <=? 1)%Z z then do r <- blend (length x) 0 0 (map (fun c => negb (c =? 0)) n) rep x; Ok (Some r)
        else do rep <- firsts n rep 0; do r <- blend (length x) 0 0 (map (fun c => negb (c =? 0)) n) rep x; Ok (Some r)
    | _ => Err
    end
  end.

(** ** Take and Drop *)
(* sfns.c:1450-1476 takedrop_ucw; [mem]: what the memory of the new array holds first *)
Definition takedrop_ucw (mem : list A) (wi : Z) (o : oper) (am : Z) (xsh : list nat) (x : list A) : res (list nat * list A) :=
  let xia := Z.of_nat (length x) in
  let cs := tl xsh in                                                           (* arr_csz; 1 for a unit array *)
  let tk := to_u 32 (Z.of_nat (size cs) * am) in
  let lv := to_u 32 (xia - tk) in
  let from := (if wi <? 0 then lv else 0)%Z in
  if (xia <? from + tk)%Z then UB else
  let ash := Z.to_nat am :: cs in
  do p <- call o ash (firstn (Z.to_nat tk) (skipn (Z.to_nat from) x));
  match p with
  | RAtm => Err
  | RArr s rep => if negb (eqsh s ash) then Err else
      if (wi <? 0)%Z then do r <- copy_range mem 0 x 0 (Z.to_nat lv); do r <- copy_range r (Z.to_nat lv) rep 0 (Z.to_nat tk); Ok (xsh, r)
      else do r <- copy_range mem 0 rep 0 (Z.to_nat tk); do r <- copy_range r (Z.to_nat tk) x (Z.to_nat tk) (Z.to_nat lv); Ok (xsh, r)
  end.
(* -wi of an i64 *)
Definition neg64 (z : Z) : res Z := if (z =? - 2 ^ 63)%Z then UB else Ok (- z)%Z.
(* sfns.c:1478-1486 take_ucw for a whole number 𝕨; an atom 𝕩 is made a list of one element *)
Definition take_ucw (mem : list A) (o : oper) (wi : Z) (xatom : bool) (xsh : list nat) (x : list A) : res (list nat * list A) :=
  do am <- (if wi <? 0 then neg64 wi else Ok wi)%Z;
  let xsh := if xatom then [1] else xsh in
  let n := match xsh with [] => 1 | n :: _ => n end in
  if (Z.of_nat n <? am)%Z then Err else takedrop_ucw mem wi o am xsh x.
(* sfns.c:1488-1497 drop_ucw *)
Definition drop_ucw (mem : list A) (o : oper) (wi : Z) (xatom : bool) (xsh : list nat) (x : list A) : res (list nat * list A) :=
  do am <- (if wi <? 0 then neg64 wi else Ok wi)%Z;
  let xsh := if xatom then [1] else xsh in
  let cam := Z.of_nat (match xsh with [] => 1 | n :: _ => n end) in
  let am := (if cam <? am then cam else am)%Z in
  do nw <- neg64 wi;
  takedrop_ucw mem nw o (to_u 64 (cam - am)) xsh x.

(** ** Deshape and Reshape *)
(* sfns.c:1499-1514 shape_uc1; an atom has an empty shape and one element, the result is then a unit array *)
Definition shape_uc1 (o : oper) (xsh : list nat) (x : list A) : res (list nat * list A) :=
  do p <- call o [length x] x;
  match p with RArr [l] rep => if l =? length x then Ok (xsh, rep) else Err | _ => Err end.
(* sfns.c:1516-1542 shape_ucw; [ash]: the shape of 𝕨⥊𝕩, whose elements are the first ones of 𝕩 if there are no more than 𝕩 has *)
Definition shape_ucw (mem : list A) (o : oper) (ash : list nat) (xsh : list nat) (x : list A) : res (option (list nat * list A)) :=
  let xia := length x in let aia := size ash in
  if xia <? aia then Ok None else
  do p <- call o ash (firstn aia x);
  match p with
  | RAtm => Err
  | RArr s rep => if negb (eqsh s ash) then Err else
      if xia =? aia then Ok (Some (xsh, rep))
      else do r <- copy_range mem 0 rep 0 aia; do r <- copy_range r aia x aia (xia - aia); Ok (Some (xsh, r))
  end.

(** ** Pick *)
(* stuff.h:75 WRAP *)
Definition wrapi (z : Z) (n : nat) : res nat := if (to_u 64 z <? Z.of_nat n)%Z then Ok (Z.to_nat (to_u 64 z)) else let z := to_u 64 (z + Z.of_nat n) in if (z <? Z.of_nat n)%Z then Ok (Z.to_nat z) else Err.
(* o2i64 of a whole number *)
Definition i64 (z : Z) : bool := ((- 2 ^ 63 <=? z) && (z <? 2 ^ 63))%Z.
(* sfns.c:417-421 PICK_IDX, in a usz *)
Fixpoint pick_idx (c : Z) (w : list Z) (xsh : list nat) : res Z :=
  match w, xsh with z :: w, n :: xsh => do k <- wrapi z n; pick_idx (to_u 32 (c * Z.of_nat n + Z.of_nat k)) w xsh | _, _ => Ok c end.
(* sfns.c:1339-1360 pick_oneIndex of a list of numbers; [None]: not one number per axis *)
Definition one_index (w : list val) (xsh : list nat) : res (option Z) :=
  if negb (length w =? length xsh) then Ok None else
  match w with
  | v :: _ => if negb (isnum v) then Ok None else match wholes w with Some z => if forallb i64 z then do c <- pick_idx 0 z xsh; Ok (Some c) else Err | None => Err end
  | [] => Ok None
  end.
(* sfns.c:1362-1406 pick_replaceOne; 𝔽 is called on one element *)
Definition replace_one (f : A -> res A) (pos : nat) (x : list A) : res (list A) := do c <- rd x pos; do v <- f c; wr x pos v.
(* sfns.c:1408-1411 pick_uc1 *)
Definition pick_uc1 (f : A -> res A) (x : list A) : res (option (list A)) := match x with [] => Ok None | _ => do r <- replace_one f 0 x; Ok (Some r) end.
(* sfns.c:1418-1448 pick_ucw with a number or a list of numbers *)
Definition pick_number (f : A -> res A) (v : val) (xsh : list nat) (x : list A) : res (option (list A)) :=
  if negb (length xsh =? 1) then Ok None else do z <- (match v with VNum z => if i64 z then Ok z else Err | _ => Err end); do pos <- wrapi z (length x); do r <- replace_one f pos x; Ok (Some r).
Definition pick_index (f : A -> res A) (w : list val) (xsh : list nat) (x : list A) : res (option (list A)) :=
  match xsh with [] => Ok None | _ => do p <- one_index w xsh; match p with Some pos => do r <- replace_one f (Z.to_nat pos) x; Ok (Some r) | None => Ok None end end.
(* sfns.c:1430-1444 with an array of lists *)
Fixpoint all_one (w : list (list val)) (xsh : list nat) : res (option (list Z)) :=
  match w with
  | [] => Ok (Some [])
  | v :: w => do p <- one_index v xsh; match p with None => Ok None | Some c => do r <- all_one w xsh; match r with Some l => Ok (Some (c :: l)) | None => Ok None end end
  end.
Definition pick_many (junk : list bool) (wf64 : bool) (re : el) (o : oper) (wsh : list nat) (w : list (list val)) (xsh : list nat) (x : list A) : res (option (list A)) :=
  match xsh with
  | [] => Ok None
  | _ => do p <- all_one w xsh;
    match p with
    | None => Ok None
    | Some z => do (z, a) <- selected (length x) 1 (map VNum z) x; do p <- call o wsh a;
      match p with RArr s l => if eqsh s wsh then do r <- select_replace junk wf64 re (length x) 1 z x l; Ok (Some r) else Err | RAtm => Err end
    end
  end.
End U.
Arguments ret : clear implicits.
Arguments oper : clear implicits.
