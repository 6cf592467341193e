(** Model of Take, Drop, Prefixes, Suffixes, Rotate, Reverse and the shifts: src/builtins/sfns.c 66-127, 488-757, 1094-1337.
    An array is its shape and the list of its elements. Element positions and lengths are natural numbers: where the code has usz
    arithmetic that does not wrap because the values are positions inside 𝕩 or the result, no wrap is written; the places where a
    value given by the user is cut to 32 bits have an explicit [to_u 32]. Result memory is a list of cells, [None] while unwritten
    (as in TransModel): reading outside of 𝕩, writing outside of the result, or leaving a cell unwritten is [UB]. *)
From Coq Require Import List Arith ZArith Bool.
Import ListNotations.
From Verif Require Import Base SqueezeModel TransModel.
Open Scope nat_scope.

Definition rank2 (sh : list nat) : bool := match sh with _ :: _ :: _ => true | _ => false end.      (* xr>1 *)
Definition csz (sh : list nat) : nat := match sh with _ :: (_ :: _) as tl => shProd tl | _ => 1 end.  (* arr_csz for xr>1, else 1 *)
Definition lead (sh : list nat) : nat := match sh with h :: _ => h | [] => 1 end.

Section Move.
Context {A : Type}.
Notation mem := (list (option A)).

(** mut_fillG(r, i, f, n) *)
Definition fillm (r : mem) (i : nat) (f : A) (n : nat) : res mem := loop n 0 (fun k r => wr r (i + k) (Some f)) r.
(** TI(x,slice)(x, s, n), and take_head (sfns.c 66-112) with s=0: n elements from s on *)
Definition slice (x : list A) (s n : nat) : res (list A) := if s + n <=? length x then Ok (firstn n (skipn s x)) else UB.
(** getFillE: the fill of 𝕩 or an error (PROPER_FILLS; without it 0 is used) *)
Definition need (fill : option A) : res A := match fill with Some f => Ok f | None => Err end.

(** sfns.c 114-127 take_impl *)
Definition take_to (ria : nat) (x : list A) (fill : option A) : res (list A) :=
  let xia := length x in
  if xia <? ria then
    do f <- need fill;
    do r <- copy (repeat None ria) 0 x 0 xia;
    do r <- fillm r xia f (ria - xia);
    done r
  else slice x 0 ria.

(** sfns.c 690-704 TAKEDROP_INIT: number of elements; mulOn on i64 *)
Definition td_init (w : Z) (xsh : list nat) : res Z :=
  if rank2 xsh then
    let n := (w * Z.of_nat (csz xsh))%Z in
    if ((- 2 ^ 63 <=? n) && (n <? 2 ^ 63))%Z then Ok n else Err
  else Ok w.
(** sfns.c 706-713 TAKEDROP_SHAPE: rsh[0] is a usz *)
Definition td_shape (xsh : list nat) (sh0 : Z) (n : nat) : list nat :=
  if rank2 xsh then Z.to_nat (to_u 32 sh0) :: tl xsh else [n].
(** -n on i64 *)
Definition neg64 (n : Z) : res Z := if (n =? - 2 ^ 63)%Z then UB else Ok (- n)%Z.
(** wva = wv<0? -wv : wv; evaluated for rank 2 and up only *)
Definition abs64 (rk2 : bool) (w : Z) : res Z := if rk2 then (if (w <? 0)%Z then neg64 w else Ok w) else Ok 0%Z.

(** sfns.c 715-737 take_c2 with a number; 𝕨 has passed o2i64 *)
Definition take_num (w : Z) (xsh : list nat) (x : list A) (fill : option A) : res (list nat * list A) :=
  do n <- td_init w xsh;
  do r <- (if (0 <=? n)%Z then
             if (2 ^ 32 <=? n)%Z then Err else take_to (Z.to_nat n) x fill
           else
             do n <- neg64 n;
             if (2 ^ 32 <=? n)%Z then Err else
             let xia := length x in
             if (Z.of_nat xia <? n)%Z then
               let n := Z.to_nat n in
               do f <- need fill;
               do r <- fillm (repeat None n) 0 f (n - xia);
               do r <- copy r (n - xia) x 0 xia;
               done r
             else slice x (xia - Z.to_nat n) (Z.to_nat n));
  do a <- abs64 (rank2 xsh) w;
  Ok (td_shape xsh a (length r), r).

(** sfns.c 738-757 drop_c2 *)
Definition drop_num (w : Z) (xsh : list nat) (x : list A) : res (list nat * list A) :=
  do n <- td_init w xsh;
  let xia := length x in
  do r <- (if (n <? 0)%Z then
             do m <- neg64 n;
             if (Z.of_nat xia <=? m)%Z then Ok [] else slice x 0 (Z.to_nat (Z.of_nat xia + n))
           else if (Z.of_nat xia <=? n)%Z then Ok [] else slice x (Z.to_nat n) (xia - Z.to_nat n));
  do a <- abs64 (rank2 xsh) w;
  Ok (td_shape xsh (if (Z.of_nat (lead xsh) <=? a)%Z then 0 else Z.of_nat (lead xsh) - a)%Z (length r), r).

(** sfns.c 523-688 takedrop_highrank. *)
(** sfns.c 564-583: one axis of the result; 𝕨<0, length in 𝕩, length c in the result (u64) *)
Definition td_axis (take : bool) (w : Z) (xl : nat) : res (bool * nat * Z) :=
  do a <- (if (w <? 0)%Z then neg64 w else Ok w);
  Ok ((w <? 0)%Z, xl, if take then a else if (Z.of_nat xl <=? a)%Z then 0%Z else (Z.of_nat xl - a)%Z).
Fixpoint td_axes (take : bool) (ws : list Z) (xe : list nat) : res (list (bool * nat * Z)) :=
  match ws, xe with
  | w :: ws, xl :: xe => do a <- td_axis take w xl; do l <- td_axes take ws xe; Ok (a :: l)
  | [], xl :: xe => do a <- td_axis take (if take then Z.of_nat xl else 0%Z) xl; do l <- td_axes take [] xe; Ok (a :: l)
  | _, [] => Ok []
  end.
(** the product with mulOn: wrapped value, whether a product did not fit, whether an axis is 0 *)
Fixpoint td_prod (l : list (bool * nat * Z)) (ria : Z) (bad good : bool) : Z * bool * bool :=
  match l with
  | [] => (ria, bad, good)
  | (_, _, c) :: l => td_prod l (to_u 32 (ria * c)) (bad || (2 ^ 32 <=? ria * c)%Z) (good || (c =? 0)%Z)
  end.
(** cellStart: the last axis whose length changes *)
Fixpoint cell_start (l : list (bool * nat * Z)) (i : nat) (cs : option nat) : option nat :=
  match l with
  | [] => cs
  | (_, xl, c) :: l => cell_start l (i + 1) (if (c =? Z.of_nat xl)%Z then cs else Some i)
  end.

(** sfns.c 619-655: the axes from the last to the first. *)
Record cst := { s_xcs : nat; s_rcs : nat; s_xs : nat; s_rs : nat; s_ri : nat; s_xi : nat; s_xSkip : nat; s_rSkip : nat; s_cw : nat;
                s_ax : list (nat * nat * nat) }.        (* per axis, outermost first: ltv, rcv, xcv *)
Definition cst0 : cst := {| s_xcs := 1; s_rcs := 1; s_xs := 0; s_rs := 0; s_ri := 0; s_xi := 0; s_xSkip := 0; s_rSkip := 0; s_cw := 0; s_ax := [] |}.
Definition cstep (take : bool) (cs i : nat) (a : bool * nat * nat) (s : cst) : cst :=
  let '(neg, xl, rl) := a in
  let pad := xl <? rl in
  let useoff := negb (xorb take neg) in
  let xi := if useoff && (rl <? xl) then s_xi s + (xl - rl) * s_xcs s else s_xi s in
  let ri := if useoff && (xl <? rl) then s_ri s + (rl - xl) * s_rcs s else s_ri s in
  let ax := (if pad then xl else rl, s_rs s, s_xs s) :: s_ax s in
  let rs := if pad then s_rs s + s_rcs s * (rl - xl) else s_rs s in
  let xs := if pad then s_xs s else s_xs s + s_xcs s * (xl - rl) in
  let rcs := s_rcs s * rl in
  let xcs := s_xcs s * xl in
  if i =? cs then
    let cw := if pad then s_rcs s * xl else rcs in
    {| s_xcs := xcs; s_rcs := rcs; s_xs := xs + cw; s_rs := rs + cw; s_ri := ri; s_xi := xi; s_xSkip := xcs; s_rSkip := rcs; s_cw := cw; s_ax := ax |}
  else {| s_xcs := xcs; s_rcs := rcs; s_xs := xs; s_rs := rs; s_ri := ri; s_xi := xi; s_xSkip := s_xSkip s; s_rSkip := s_rSkip s; s_cw := s_cw s; s_ax := ax |}.
(** for (i=rr; i-->0; ): the list is outermost first, i the index of its head *)
Fixpoint cinit (take : bool) (cs i : nat) (l : list (bool * nat * nat)) : cst :=
  match l with [] => cst0 | a :: l => cstep take cs i a (cinit take cs (i + 1) l) end.

(** sfns.c 664-678: stepping the counters; axes cellStart-1 .. 0, innermost first: lcv, ltv, rcv, xcv. [None]: all done *)
Fixpoint tdbump (dr dx : nat) (first : bool) (ax : list (nat * (nat * nat * nat))) : res (option (list (nat * (nat * nat * nat)) * nat * nat)) :=
  match ax with
  | [] => Ok None
  | (lc, (lt, rc, xc)) :: rest =>
    if lc =? 0 then UB
    else if lc =? 1 then
      do o <- tdbump dr dx false rest;
      match o with None => Ok None | Some (rest', a, b) => Ok (Some ((lt, (lt, rc, xc)) :: rest', a, b)) end
    else Ok (Some ((lc - 1, (lt, rc, xc)) :: rest, if first then dr else rc, if first then dx else xc))
  end.
(** sfns.c 657-681 *)
Fixpoint tdloop (fuel : nat) (anyFill : bool) (f : option A) (x : list A) (cw dr dx : nat) (ax : list (nat * (nat * nat * nat))) (ri xi pri : nat) (r : mem) : res (mem * nat) :=
  match fuel with
  | O => UB
  | S fuel =>
    do (r, pri) <- (if anyFill then
                      do r <- (if negb (ri =? pri) then (if ri <? pri then UB else do f <- need f; fillm r pri f (ri - pri)) else Ok r);
                      Ok (r, ri + cw)
                    else Ok (r, pri));
    do r <- copy r ri x xi cw;
    do o <- tdbump dr dx true ax;
    match o with
    | None => Ok (r, pri)
    | Some (ax, a, b) => tdloop fuel anyFill f x cw dr dx ax (ri + a) (xi + b) pri r
    end
  end.
Definition td_generic (take anyFill : bool) (cs ria : nat) (l : list (bool * nat * nat)) (x : list A) (fill : option A) : res (list A) :=
  let r := repeat None ria in
  if length x =? 0 then do f <- need fill; do r <- fillm r 0 f ria; done r
  else
    let s := cinit take cs 0 l in
    let ax := map (fun '(lt, rc, xc) => (lt, (lt, rc, xc))) (rev (firstn cs (s_ax s))) in
    do (r, pri) <- tdloop (S ria) anyFill fill x (s_cw s) (s_rSkip s) (s_xSkip s) ax (s_ri s) (s_xi s) 0 r;
    do r <- (if anyFill && negb (pri =? ria) then (if ria <? pri then UB else do f <- need fill; fillm r pri f (ria - pri)) else Ok r);
    done r.
(** 𝕨 is a list of integers that have passed o2i64 *)
Definition takedrop_list (take : bool) (ws : list Z) (xsh : list nat) (x : list A) (fill : option A) : res (list nat * list A) :=
  let wia := length ws in
  if 255 <=? wia then Err else
  match ws with
  | [] => Ok (xsh, x)
  | [w] => if take then take_num w xsh x fill else drop_num w xsh x
  | w0 :: _ =>
    let xr := length xsh in
    let rr := if wia <? xr then xr else wia in
    let xe := repeat 1 (rr - xr) ++ xsh in
    do l <- td_axes take ws xe;
    let '(riaZ, bad, good) := td_prod l 1 false false in
    if bad && negb good then Err else
    if (2 ^ 31 - 1000 <? riaZ)%Z then Err else                    (* CHECK_IA(ria, 1) *)
    let rsh := map (fun '(_, _, c) => Z.to_nat (to_u 32 c)) l in
    match cell_start l 0 None with
    | None => Ok (xe, x)
    | Some 0 => if take then take_num w0 xe x fill else drop_num w0 xe x
    | Some cs =>
      if (riaZ =? 0)%Z then Ok (rsh, [])
      else
        let anyFill := existsb (fun '(_, xl, c) => (Z.of_nat xl <? c)%Z) l in
        if anyFill && match fill with None => true | Some _ => false end then Err else
        do r <- td_generic take anyFill cs (Z.to_nat riaZ) (map (fun '(n, xl, c) => (n, xl, Z.to_nat (to_u 32 c))) l) x fill;
        Ok (rsh, r)
    end
  end.

(** sfns.c 488-517 affixes: ↑𝕩 and ↓𝕩; each a shape and elements *)
Definition affixes (post : bool) (xsh : list nat) (x : list A) : res (list (list nat * list A)) :=
  match xsh with
  | [] => Err
  | cam :: sh =>
    let c := shProd sh in
    fold_right (fun i acc => do l <- acc; do e <- slice x (if post then i * c else 0) ((if post then cam - i else i) * c); Ok (((if post then cam - i else i) :: sh, e) :: l)) (Ok []) (seq 0 (cam + 1))
  end.

(** sfns.c 1165-1217 reverse_c1 *)
(** 1181-1198: cells of one element: rp[i]=xp[n-i-1] *)
Definition reverse_elts (n : nat) (x : list A) : res (list A) := do r <- loop n 0 (fun i r => do v <- rd x (n - i - 1); wr r i (Some v)) (repeat None n); done r.
(** 1206-1216: larger cells *)
Definition reverse_cells (cam c : nat) (x : list A) : res (list A) :=
  do (r, _) <- loop cam 0 (fun i '(r, (rp, ip)) => if ip <? c then UB else do r <- copy r rp x (ip - c) c; Ok (r, (rp + c, ip - c))) (repeat None (length x), (0, length x));
  done r.
(** [word]: the cells of 𝕩 fit a machine type and hold one element each (cellWidthLog); cells of several elements that do are moved as one *)
Definition reverse1 (one : bool) (xsh : list nat) (x : list A) : res (list nat * list A) :=
  match xsh with
  | [] => Err
  | n :: sh => if n <=? 1 then Ok (xsh, x) else do r <- (if one then reverse_elts n x else reverse_cells n (shProd sh) x); Ok (xsh, r)
  end.

(** sfns.c 1223 WRAP_ROT *)
Definition wrap_rot (v : Z) (l : nat) : Z :=
  if (0 <=? v)%Z && (v <? Z.of_nat l)%Z then v else let v := Z.rem v (Z.of_nat l) in if (v <? 0)%Z then (v + Z.of_nat l)%Z else v.
(** sfns.c 1321-1337 reverse_c2 with a number *)
Definition rotate_num (w : Z) (xsh : list nat) (x : list A) : res (list nat * list A) :=
  match xsh with
  | [] => Err
  | cam :: sh =>
    let xia := length x in
    if xia =? 0 then Ok (xsh, x) else
    if cam =? 0 then UB else
    let am := Z.to_nat (wrap_rot w cam) in
    if am =? 0 then Ok (xsh, x) else
    let am := am * shProd sh in
    if xia <? am then UB else
    do r <- copy (repeat None xia) 0 x am (xia - am);
    do r <- copy r (xia - am) x 0 am;
    do l <- done r; Ok (xsh, l)
  end.
(** sfns.c 1224-1319 rotate_highrank. 1262-1273: from the last axis of 𝕨 back, axes that do not move; gives the axis, its rotation
    and the product of the lengths passed. The list is innermost first. *)
Fixpoint rot_skip (inv : bool) (l : list (Z * nat)) (c : nat) : res (nat * nat * nat * list (Z * nat)) :=   (* rot0, l0, csz, outer axes *)
  match l with
  | [] => UB
  | (w, xl) :: rest =>
    let v := wrap_rot w xl in
    if (v =? 0)%Z then rot_skip inv rest (c * xl)
    else Ok ((if inv then xl - Z.to_nat v else Z.to_nat v), xl, c, rest)
  end.
(** 1280-1290: outer axes, innermost first: current position, rotation, length, stride; and the first xi *)
Fixpoint rot_init (inv : bool) (l : list (Z * nat)) (c : nat) : list (nat * (nat * nat * nat)) * nat :=
  match l with
  | [] => ([], 0)
  | (w, xl) :: rest =>
    let v := Z.to_nat (wrap_rot w xl) in
    let v := if inv && negb (v =? 0) then xl - v else v in
    let '(ax, xi) := rot_init inv rest (c * xl) in
    ((v, (v, xl, c)) :: ax, v * c + xi)
  end.
(** 1298-1305; xi-=xcv*pos; xi+=xcv is done as one step (the code wraps modulo 2^32 in between). [None]: all done *)
Fixpoint rot_bump (ax : list (nat * (nat * nat * nat))) (xi : nat) : res (option (list (nat * (nat * nat * nat)) * nat)) :=
  match ax with
  | [] => Ok None
  | (p, (rot, xl, c)) :: rest =>
    let p := p + 1 in
    do q <- (if p =? xl then (if xi + c <? c * p then UB else Ok (0, xi + c - c * p)) else Ok (p, xi + c));
    let '(p, xi) := q in
    if negb (p =? rot) then Ok (Some ((p, (rot, xl, c)) :: rest, xi))
    else do o <- rot_bump rest xi; match o with None => Ok None | Some (rest, xi) => Ok (Some ((p, (rot, xl, c)) :: rest, xi)) end
  end.
Fixpoint rot_loop (fuel : nat) (x : list A) (n0 n1 rSkip : nat) (ax : list (nat * (nat * nat * nat))) (ri xi : nat) (r : mem) : res mem :=
  match fuel with
  | O => UB
  | S fuel =>
    do r <- copy r (ri + n1) x xi n0;
    do r <- copy r ri x (xi + n0) n1;
    do o <- rot_bump ax xi;
    match o with None => Ok r | Some (ax, xi) => rot_loop fuel x n0 n1 rSkip ax (ri + rSkip) xi r end
  end.
(** 𝕨 is a list of integers; with [inv] it is 𝕨⌽⁼𝕩. 1267: the loop reaches axis 0 *)
Fixpoint all_still (l : list (Z * nat)) : bool := match l with [] => true | (w, xl) :: l => (wrap_rot w xl =? 0)%Z && all_still l end.
(** 1236-1239: the rotation of a single axis goes through the number form; the negation is that of a float, and o2i64 refuses 2⋆63 *)
Definition rotate_one (inv : bool) (w : Z) (xsh : list nat) (x : list A) : res (list nat * list A) :=
  let w := (if inv then - w else w)%Z in if (2 ^ 63 <=? w)%Z then Err else rotate_num w xsh x.
Definition rotate_list (inv : bool) (ws : list Z) (xsh : list nat) (x : list A) : res (list nat * list A) :=
  let wia := length ws in
  match xsh with
  | [] => if wia =? 0 then Ok (xsh, x) else Err
  | _ =>
    match ws with
    | [] => Ok (xsh, x)
    | [w] => rotate_one inv w xsh x
    | w0 :: ws' =>
      if length xsh <? wia then Err else
      if length x =? 0 then Ok (xsh, x) else
      let axs := combine ws xsh in
      if all_still (tl axs) then rotate_one inv w0 xsh x
      else
        do q <- rot_skip inv (rev axs) 1;
        let '(rot0, l0, c, outer) := q in
        let c := c * shProd (skipn wia xsh) in
        let '(ax, xi) := rot_init inv outer (c * l0) in
        if l0 <? rot0 then UB else
        do r <- rot_loop (S (length x)) x (c * rot0) (c * (l0 - rot0)) (c * l0) ax 0 xi (repeat None (length x));
        do l <- done r; Ok (xsh, l)
    end
  end.

(** sfns.c 1094-1162: shifts. [w = None] is the one-argument form with the fill of 𝕩. *)
Definition shift_check (wsh xsh : list nat) : res unit :=
  let wr := length wsh in let xr := length xsh in
  if negb (wr + 1 =? xr) && negb (wr =? xr) then Err
  else if forallb (fun i => match nth_error wsh (i + wr - xr), nth_error xsh i with Some a, Some b => a =? b | _, _ => false end) (seq 1 (xr - 1)) then Ok tt else Err.
Definition shift_before1 (xsh : list nat) (x : list A) (fill : option A) : res (list nat * list A) :=
  match xsh with
  | [] => Err
  | _ :: sh =>
    let ia := length x in
    if ia =? 0 then Ok (xsh, x) else
    do f <- need fill;
    let c := shProd sh in
    if ia =? c then Ok (xsh, repeat f ia)                             (* reshape_one, C34_reshape_one_* *)
    else if ia <? c then UB else
      do r <- copy (repeat None ia) c x 0 (ia - c);
      do r <- fillm r 0 f c;
      do l <- done r; Ok (xsh, l)
  end.
Definition shift_after1 (xsh : list nat) (x : list A) (fill : option A) : res (list nat * list A) :=
  match xsh with
  | [] => Err
  | _ :: sh =>
    let ia := length x in
    if ia =? 0 then Ok (xsh, x) else
    do f <- need fill;
    let c := shProd sh in
    if ia =? c then Ok (xsh, repeat f ia)
    else if ia <? c then UB else
      do r <- copy (repeat None ia) 0 x c (ia - c);
      do r <- fillm r (ia - c) f c;
      do l <- done r; Ok (xsh, l)
  end.
Definition shift_before2 (wsh : list nat) (w : list A) (xsh : list nat) (x : list A) : res (list nat * list A) :=
  match xsh with
  | [] => Err
  | _ =>
    do _ <- shift_check wsh xsh;
    let wia := length w in let xia := length x in
    let mid := if wia <? xia then wia else xia in
    do r <- copy (repeat None xia) 0 w 0 mid;
    do r <- copy r mid x 0 (xia - mid);
    do l <- done r; Ok (xsh, l)
  end.
Definition shift_after2 (wsh : list nat) (w : list A) (xsh : list nat) (x : list A) : res (list nat * list A) :=
  match xsh with
  | [] => Err
  | _ =>
    do _ <- shift_check wsh xsh;
    let wia := length w in let xia := length x in
    do r <- (if wia <? xia then
               do r <- copy (repeat None xia) 0 x wia (xia - wia);
               copy r (xia - wia) w 0 wia
             else copy (repeat None xia) 0 w (wia - xia) xia);
    do l <- done r; Ok (xsh, l)
  end.
End Move.
