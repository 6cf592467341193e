(** Model of ∾𝕩 of a list, 𝕨∾𝕩, >𝕩, ⊑𝕩 and 𝕨⊑𝕩: src/builtins/sfns.c pick_c1, recPick, pick_c2, join_c1, join_c2; src/core/stuff.c
    bqn_merge; src/utils/mut.c apd_tot_init, apd_sh_init, apd_reshape, apd_sh0/1/2, apd_shE, apd_tot; src/core/stuff.h WRAP, shProd, eqShPart.
    An array is its shape and the list of its elements; an atom is an array of rank 0 with one element. Lengths in shapes are natural
    numbers; the places where the code calculates in usz (32 bits in the default build) or ur (8 bits) are reduced explicitly.
    Simplified: the element types of the buffers (ApdMut changes the type of the buffer when an element does not fit; the values stay),
    reference counts, fills, and reuse of 𝕨's memory by 𝕨∾𝕩 (the value is the same; see ReuseModel). [amax]: largest element count an
    allocation accepts (CHECK_IA, src/core/stuff.h), for the element type at hand. *)
From Verif Require Import Base SqueezeModel.

Definition ur (z : Z) : Z := z mod 256.

Section Join.
Context {A : Type}.
Notation jarr := (list nat * list A)%type.

(** core/stuff.h 175-179; r is a usz *)
Definition shProd32 (sh : list nat) : Z := fold_left (fun r l => to_u 32 (r * Z.of_nat l)) sh 1.

(** ** ∾𝕩, list case: sfns.c 790-850 *)
(** 795-799: maximum rank seen, result rank so far, difference of ranks, and esh, which is NULL or points into the shape of the first
    item at the given position; the result length *)
Record js : Type := mkJ { j_rm : Z; j_rr : Z; j_rd : Z; j_esh : option nat; j_cam : Z }.

(** a read through esh *)
Definition esh_at (s0 : list nat) (e : option nat) (i : nat) : res nat :=
  match e with None => UB | Some o => rd s0 (o + i) end.
(** core/stuff.h 185-188, second argument esh *)
Fixpoint eq_part (w s0 : list nat) (e : option nat) (n i : nat) : res bool :=
  match n with
  | O => Ok true
  | S n => do a <- rd w i; do b <- esh_at s0 e i; if (a =? b)%nat then eq_part w s0 e n (S i) else Ok false
  end.
(** 818-821 *)
Fixpoint prev_cells (l : nat) (prev : list jarr) : res unit :=
  match prev with
  | [] => Ok tt
  | xj :: prev => do a <- rd (fst xj) 0; if (l =? a)%nat then prev_cells l prev else Err
  end.
(** 800-805 *)
Definition join_start (x0 : jarr) : js :=
  match fst x0 with
  | [] => mkJ 0 1 0 None 1
  | l :: _ => let r := ur (Z.of_nat (length (fst x0))) in mkJ r r 0 (Some 1%nat) (to_u 32 (Z.of_nat l))
  end.
(** 807-831, one item. [prev]: items 1 to i-1. [s0]: shape of item 0 *)
Definition join_step (s0 : list nat) (prev : list jarr) (i : Z) (c : jarr) (s : js) : res js :=
  let csh := fst c in
  let cr := ur (Z.of_nat (length csh)) in
  if cr =? 0 then
    if 1 <? j_rm s then Err else Ok (mkJ (j_rm s) (j_rr s) (j_rm s) (j_esh s) (to_u 32 (j_cam s + 1)))
  else
    let cd := ur (j_rm s - cr) in
    do s1 <-
      (if j_rd s <? cd then
         if 2 - j_rd s <? ur (cd + 1 - j_rd s) then Err else
         do s' <-
           (if j_rr s <? cr then
              match j_esh s with
              | Some (S o) => do l <- rd s0 o; do _ <- prev_cells l prev; Ok (mkJ (j_rm s) cr (j_rd s) (Some o) (to_u 32 i))
              | _ => UB                                                                (* esh-- and *esh of a null pointer *)
              end
            else Ok s);
         Ok (mkJ (if j_rm s' <? cr then cr else j_rm s') (j_rr s') 1 (j_esh s') (j_cam s'))
       else Ok s);
    do (add, csh') <- (if cr <? j_rm s1 then Ok (1, csh) else do l <- rd csh 0; Ok (Z.of_nat l, tl csh));
    let cam := to_u 32 (j_cam s1 + add) in
    do e <- eq_part csh' s0 (j_esh s1) (Z.to_nat (j_rm s1 - 1)) 0;
    if e then Ok (mkJ (j_rm s1) (j_rr s1) (j_rd s1) (j_esh s1) cam) else Err.
Fixpoint join_loop (s0 : list nat) (prev : list jarr) (i : Z) (xs : list jarr) (s : js) : res js :=
  match xs with
  | [] => Ok s
  | c :: xs => do s <- join_step s0 prev i c s; join_loop s0 (prev ++ [c]) (i + 1) xs s
  end.
(** sh[k] for k from o to o+n-1 through esh: 836, 843 *)
Fixpoint esh_list (s0 : list nat) (e : option nat) (n i : nat) : res (list nat) :=
  match n with
  | O => Ok []
  | S n => do a <- esh_at s0 e i; do t <- esh_list s0 e n (S i); Ok (a :: t)
  end.
(** mut.c 608 apd_tot, 646-653 apd_tot_init: each item's elements are copied to the position after the last, without a test *)
Fixpoint apd_tot (cap : Z) (pos : Z) (xs : list jarr) : res (list A) :=
  match xs with
  | [] => if pos =? cap then Ok [] else UB                                             (* the rest was never written *)
  | x :: xs =>
    let p := pos + Z.of_nat (length (snd x)) in
    if cap <? p then UB else do r <- apd_tot cap p xs; Ok (snd x ++ r)
  end.
(** the whole of the list case for the items x0 :: xs *)
Definition join_list (amax : Z) (x0 : jarr) (xs : list jarr) : res jarr :=
  do s <- join_loop (fst x0) [] 1 xs (join_start x0);
  if j_rm s =? 0 then Err else
  do t <- esh_list (fst x0) (j_esh s) (Z.to_nat (j_rr s - 1)) 0;
  let cap := to_u 32 (j_cam s * shProd32 t) in
  if amax <? cap then Err else
  do r <- apd_tot cap 0 (x0 :: xs);
  Ok (Z.to_nat (j_cam s) :: t, r).

(** ** 𝕨∾𝕩: sfns.c 993-1050. The elements are those of arr_join_inline, mut.h 159-203, whose size is a u64 *)
(** 1033-1042 *)
Fixpoint join_trail (wsh xsh : list nat) (wr xr c n i : nat) : res (list nat) :=
  match n with
  | O => Ok []
  | S n =>
    do s <- (if (i + xr <? c)%nat then UB else rd xsh (i + xr - c));
    do w <- (if (i + wr <? c)%nat then UB else rd wsh (i + wr - c));
    if (w =? s)%nat then do t <- join_trail wsh xsh wr xr c n (S i); Ok (s :: t) else Err
  end.
Definition join_to (amax : Z) (w x : jarr) : res jarr :=
  let wr := length (fst w) in
  let xr := length (fst x) in
  let c := if (xr <? wr)%nat then wr else xr in
  if (c =? 0)%nat then Ok ([2%nat], snd w ++ snd x) else
  if ((1 <? c - wr) || (1 <? c - xr))%nat then Err else
  let wia := length (snd w) in
  if amax <? Z.of_nat (wia + length (snd x)) then Err else
  let r := snd w ++ snd x in
  if (c =? 1)%nat then Ok ([length r], r) else
  let wsh := if (wr <=? 1)%nat then [wia] else fst w in
  do t <- join_trail wsh (fst x) wr xr c (c - 1) 1;
  do wl <- (if (wr =? c)%nat then rd wsh 0 else Ok 1%nat);
  do xl <- (if (xr =? c)%nat then rd (fst x) 0 else Ok 1%nat);
  Ok (Z.to_nat (to_u 32 (Z.of_nat wl + Z.of_nat xl)) :: t, r).

(** ** >𝕩 of an array with elements: stuff.c 498-502 *)
(** mut.c 597-598, 612: the shape must be that of the first item; the checks by rank come to this. 605-626: the elements are copied
    to the next position. A wrong shape makes later appends do nothing, and is an error at the end *)
Fixpoint apd_sh (csh : list nat) (cap pos : Z) (xs : list jarr) : res (list A) :=
  match xs with
  | [] => if pos =? cap then Ok [] else UB
  | x :: xs =>
    if (length (fst x) =? length csh)%nat && forallb (fun p => (fst p =? snd p)%nat) (combine csh (fst x)) then
      let p := pos + Z.of_nat (length (snd x)) in
      if cap <? p then UB else do r <- apd_sh csh cap p xs; Ok (snd x ++ r)
    else Err
  end.
(** mut.c 654-723 apd_sh_init, 725-752 apd_reshape (for a single item) *)
Definition merge (amax : Z) (osh : list nat) (xs : list jarr) : res jarr :=
  match xs with
  | [] => Err                                                                          (* not modelled: uses fills *)
  | [x] => if 255 <? Z.of_nat (length osh + length (fst x)) then Err else Ok (map (fun _ => 1%nat) osh ++ fst x, snd x)
  | x :: _ =>
    let xr := length (fst x) in
    if (0 <? xr)%nat && (255 <? Z.of_nat (length osh + xr)) then Err else
    let ria := shProd32 osh in
    let xia := Z.of_nat (length (snd x)) in
    if (0 <? xr)%nat && (2 ^ 32 <=? ria * xia) then Err else                           (* mulOn *)
    let cap := if (0 <? xr)%nat then ria * xia else ria in
    if amax <? cap then Err else
    do r <- apd_sh (fst x) cap 0 xs;
    Ok (osh ++ fst x, r)
  end.

(** ** ⊑𝕩: sfns.c 395-404 *)
Definition first (x : jarr) : res A := match snd x with [] => Err | a :: _ => Ok a end.

(** ** 𝕨⊑𝕩 *)
(** what the element type of 𝕨's storage is: one of el_i8, el_i16, el_i32, el_f64, or any other (el_bit, characters, el_B) *)
Inductive pel : Type := TNum | TGen.
(** 𝕨: a number (None: not an integer), another atom, or an array with its element type *)
Inductive pw : Type := PNum (z : option Z) | PAtm | PArr (e : pel) (sh : list nat) (ws : list pw).
Inductive pr : Type := RElt (a : A) | RArr (sh : list nat) (rs : list pr).
Definition isNum (w : pw) : bool := match w with PNum _ => true | _ => false end.
(** core/stuff.h 75 WRAP *)
Definition wrap (v : Z) (n : nat) : res Z :=
  let l := Z.of_nat n in
  if l <=? to_u 64 v then let v := to_u 64 (v + l) in if l <=? v then Err else Ok (to_u 32 v) else Ok (to_u 32 v).
(** o2i64 and pick_convFloat 423-426: an integer that an i64 holds, else an error *)
Definition o2i64 (w : pw) : res Z :=
  match w with PNum (Some z) => if (- 2 ^ 63 <=? z) && (z <? 2 ^ 63) then Ok z else Err | _ => Err end.
(** 416-421 PICK_IDX; the loop is over 𝕨, which is as long as xsh *)
Fixpoint pick_idx (xsh : list nat) (ws : list pw) (c : Z) : res Z :=
  match ws with
  | [] => Ok c
  | w :: ws =>
    match xsh with
    | [] => UB
    | n :: xsh => do v <- o2i64 w; do i <- wrap v n; pick_idx xsh ws (to_u 32 (c * Z.of_nat n + i))
    end
  end.
Definition pick_list (x : jarr) (sh : list nat) (ws : list pw) : res pr :=
  if negb (length sh =? 1)%nat then Err else
  if negb (length ws =? length (fst x))%nat then Err else
  do c <- pick_idx (fst x) ws 0; do a <- rd (snd x) (Z.to_nat c); Ok (RElt a).
(** 428-470 recPick *)
Fixpoint rec_pick (x : jarr) (w : pw) : res pr :=
  match w with
  | PArr e sh ws =>
    match e with
    | TNum => pick_list x sh ws
    | TGen =>
      match ws with
      | [] => if negb (length (fst x) =? 0)%nat then Err else do a <- rd (snd x) 0; Ok (RElt a)
      | w0 :: _ =>
        if isNum w0 then pick_list x sh ws else
        do rs <- (fix go (ws : list pw) : res (list pr) :=
                    match ws with
                    | [] => Ok []
                    | c :: ws =>
                      do r <- (match c with PArr _ _ _ => rec_pick x c | _ => Err end);
                      do rs <- go ws; Ok (r :: rs)
                    end) ws;
        Ok (RArr sh rs)
      end
    end
  | _ => UB
  end.
(** 472-488 pick_c2 *)
Definition pick (w : pw) (x : jarr) : res pr :=
  match w with
  | PNum _ =>
    if negb (length (fst x) =? 1)%nat then Err else
    do v <- o2i64 w; do p <- wrap v (length (snd x)); do a <- rd (snd x) (Z.to_nat p); Ok (RElt a)
  | PAtm => Err
  | _ => rec_pick x w
  end.
End Join.
Arguments pr : clear implicits.
